(** * The iterator panics exactly where [breaks] says *)
From Verif Require Import Base Location Token Scanner SpecScan ScanLemmas ScanFacts ScanMain ScanMain2
  ScanLine ScanFail ScanProofs ScanFail2.
Local Open Scope char_scope.
Local Open Scope nat_scope.

Lemma span_all p l : Forall (fun b => p (peek_byte b) = true) l -> span_len p l = List.length l.
Proof. induction 1 as [|x l H _ IH]; cbn; [reflexivity|]. now rewrite H, IH. Qed.

Section Panics.
  Variable sc : scanner.
  Variable c : ascii.
  Hypothesis A1 : at1 sc c.
  Hypothesis Hu : utf8 (sc_src sc).
  Hypothesis Hb : is_boundary (sc_src sc) (sc_start sc) = true.
  Hypothesis Ht : sc_tagend sc = false.

  Lemma byte_at_end p : Forall (fun b => p (peek_byte b) = true) (skipn (sc_cur sc) (sc_src sc)) -> byte_at (advance sc p) = Panic.
  Proof.
    intros H. unfold byte_at, advance. rewrite (span_all _ _ H). cbn [bump set_cur sc_src sc_cur].
    assert (nth_error (sc_src sc) (sc_cur sc + List.length (skipn (sc_cur sc) (sc_src sc))) = None) as ->; [|reflexivity].
    apply nth_error_None. rewrite skipn_length. lia.
  Qed.
  Lemma beyond n ty lit adv : List.length (sc_src sc) < n -> add_token (set_cur sc n) ty lit adv = Panic.
  Proof.
    intros H. unfold add_token, slice. cbn [set_cur sc_src sc_start sc_cur].
    assert (n <=? List.length (sc_src sc) = false) as -> by now apply Nat.leb_gt. now rewrite andb_false_r.
  Qed.

  Lemma p_attribute : starts_new_line sc = true -> Forall (fun x => ~ In x [" "; "010"; ":"]) (skipn (sc_cur sc) (sc_src sc)) -> scan_colon sc = Panic.
  Proof.
    intros L H. unfold scan_colon. rewrite L. unfold starts_attr. rewrite byte_at_end; [reflexivity|].
    eapply Forall_impl; [|exact H]. intros b Hn. apply negb_true_iff, Bool.not_true_is_false. intros K. apply Hn. apply memc_In in K.
    unfold peek_byte in K. destruct (is_cont b); [|exact K]. cbn in K. intuition discriminate.
  Qed.
  Lemma p_brace : Forall (fun x => is_ascii_alnum x = true \/ x = "-") (skipn (sc_cur sc) (sc_src sc)) -> scan_lbrace sc = Panic.
  Proof.
    intros H. unfold scan_lbrace, starts_attribute_reference. rewrite byte_at_end; [reflexivity|].
    eapply Forall_impl; [|exact H]. intros b K. destruct b as [[] [] [] [] [] [] [] []], K as [K|K]; try discriminate K; reflexivity.
  Qed.
  Lemma p_amp : Forall (fun x => is_ascii_alnum x = true) (skipn (sc_cur sc) (sc_src sc)) -> scan_amp sc = Panic.
  Proof.
    intros H. unfold scan_amp, starts_charref. rewrite byte_at_end; [reflexivity|].
    eapply Forall_impl; [|exact H]. intros b K. destruct b as [[] [] [] [] [] [] [] []]; try discriminate K; reflexivity.
  Qed.

  (** *** headings *)
  Lemma p_heading k t : c = "=" -> starts_new_line sc = true -> k <= 4 -> skipn (sc_cur sc) (sc_src sc) = repeat "=" k ++ t ->
    match t with [] => True | x :: _ => ~ ascii7 x end -> scan_delim sc c = Panic.
  Proof.
    intros Hc L K E Hx. pose proof (cur_le sc c A1) as Le. pose proof (cur_eq sc c A1) as Ce.
    unfold scan_delim. rewrite (o_end_tag_line sc Ht), L. cbn [andb].
    assert (starts_repeated_char_line sc c 4 = false) as ->.
    { apply Bool.not_true_is_false. intros R. unfold starts_repeated_char_line in R. apply andb_prop in R as [_ R]. apply beqb_eq in R.
      apply (peeks_ahead_prefix sc (repeat c (4 - 1) ++ [NL])) in R as [r R]; [|subst c; discriminate]. rewrite E in R. subst c.
      destruct k as [|[|[|[|[|k]]]]]; cbn in R; [..|lia]; (destruct t as [|x t]; [discriminate R|]); try discriminate R; injection R as ->; try (apply Hx; reflexivity); discriminate. }
    unfold scan_delim_inner. subst c. change ("=" == "=") with true. cbv iota.
    assert (peek sc == ">" = false) as ->.
    { apply Ascii.eqb_neq. intros P. apply peek_skipn in P; [|reflexivity|discriminate]. rewrite E in P. destruct k as [|k]; [|discriminate P].
      destruct t as [|x t]; [discriminate P|]. injection P as -> _. apply Hx. reflexivity. }
    rewrite L. unfold add_heading, advance. rewrite E.
    rewrite span_len_repeat; [|reflexivity|].
    2:{ intros x r -> P. apply Hx. unfold peek_byte in P. destruct (is_cont x); [discriminate|]. subst x. reflexivity. }
    cbn [bump set_cur sc_cur sc_src]. replace (sc_cur sc + k + 1 - 1 - sc_start sc) with (S k) by lia.
    assert (forall ty, add_token (bump (bump sc k) 1) ty false 0 = Panic) as P.
    { intros ty. change (bump (bump sc k) 1) with (set_cur sc (sc_cur sc + k + 1)). destruct t as [|x t].
      - apply beyond. apply (f_equal (@List.length ascii)) in E. rewrite skipn_length, app_length, repeat_length in E. cbn in E. lia.
      - replace (sc_cur sc + k + 1) with (S (sc_cur sc + k)) by lia.
        assert (skipn (sc_cur sc + k) (sc_src sc) = x :: t) as E'.
        { rewrite <- skipn_skipn', E. rewrite <- (repeat_length "=" k) at 1. apply skipn_length_app. }
        eapply (high_panics sc Hu Hb (sc_cur sc + k) x t); [exact E'|lia| |exact Hx].
        destruct k as [|k]; [rewrite Nat.add_0_r; eapply cur_boundary; eauto; reflexivity|]. rewrite Nat.add_succ_r. eapply (utf8_boundary _ _ "="); [exact Hu| |reflexivity].
        rewrite <- nth_error_skipn', E, nth_error_app1 by (rewrite repeat_length; lia). apply nth_error_repeat; lia. }
    destruct k as [|[|[|[|[|k]]]]]; try apply P. lia.
  Qed.

  (** *** table cells and links *)
  Lemma p_cell s x r : c = "|" -> skipn (sc_cur sc) (sc_src sc) = s ++ x :: r ->
    (starts_new_line sc = true /\ ~ (exists t, s = bs "===" ++ t)) \/ (peek_back sc = SP /\ starts_new_line sc = false) ->
    Forall (fun c => ascii7 c /\ c <> "010" /\ c <> "000") s -> ~ occurs (bs " |") s -> ~ ascii7 x -> scan_bar sc = Panic.
  Proof.
    intros Hc E W F N Hx. unfold scan_bar.
    assert (starts_new_line sc && beqb (peeks_ahead sc 3) (bs "===") = false) as ->.
    { apply Bool.not_true_is_false. intros R. apply andb_prop in R as [R1 R2]. apply beqb_eq in R2. destruct W as [[_ W]|[_ W]]; [|congruence]. apply W.
      apply (peeks_ahead_prefix sc (bs "===")) in R2 as [q R2]; [|discriminate]. rewrite E in R2. clear - R2 Hx.
      do 3 (destruct s as [|? s]; [injection R2 as -> _; elim Hx; reflexivity|]; cbn in R2; injection R2 as -> R2). now exists s. }
    assert (starts_new_line sc || (peek_back sc == SP) = true) as ->.
    { destruct W as [[-> _]|[-> _]]; [reflexivity|apply orb_true_r]. }
    pose proof (fine_cell s x r Hx F "|" (bar_occurs s N)) as C. rewrite <- Hc in C.
    pose proof (cur_le sc c A1) as Le. pose proof (cur_eq sc c A1) as Ce. pose proof (at_suffix sc _ _ E Le) as Ln. rewrite app_length in Ln.
    pose proof (cell_ends sc Hu Hb c s (x :: r) C (List.length (sc_src sc)) (sc_cur sc) ltac:(lia) E ltac:(lia)) as K. rewrite set_cur_id in K.
    unfold add_table_cell. apply K; [replace (sc_cur sc - 1) with (sc_start sc) by lia; exact (proj1 A1)| |exact Hx].
    eapply cur_boundary; eauto. subst c. reflexivity.
  Qed.
  Lemma p_link s x r : c = "h" -> skipn (sc_cur sc) (sc_src sc) = bs "ttp" ++ s ++ x :: r ->
    Forall link_char s -> (forall t c, s = t ++ [c] -> ~ punctuation c) -> ~ ascii7 x -> add_link sc = Panic.
  Proof.
    intros Hc E F N Hx.
    assert (link (bs "ttp" ++ s) (x :: r)) as C.
    { apply fine_link; [exact Hx| |].
      - apply Forall_app. split; [|exact F]. do 3 (constructor; [split; [reflexivity|split; [discriminate|split; [discriminate|intros [_ P]; discriminate P]]]|]). constructor.
      - intros t d Et. destruct (destruct_last s) as [->|(u & z & ->)].
        + rewrite app_nil_r in Et. destruct t as [|? [|? [|? t]]]; cbn in Et; try discriminate Et; [injection Et as _ _ <-; intros [_ P]; discriminate P|]. injection Et as _ _ _ Et. destruct t; discriminate Et.
        + rewrite app_assoc in Et. apply app_inj_tail in Et as [_ <-]. now apply (N u). }
    pose proof (cur_le sc c A1) as Le. pose proof (cur_eq sc c A1) as Ce. rewrite app_assoc in E. pose proof (at_suffix sc _ _ E Le) as Ln. rewrite app_length in Ln.
    pose proof (link_ends sc Hu Hb _ _ C (List.length (sc_src sc)) (sc_cur sc) ltac:(lia) E ltac:(lia)) as K. rewrite set_cur_id in K.
    unfold add_link. apply K; [|exact Hx]. eapply cur_boundary; eauto. subst c. reflexivity.
  Qed.

  (** *** cross references and anchors *)
  Lemma single_byte i x : nth_error (sc_src sc) i = Some x -> is_boundary (sc_src sc) i = true -> is_boundary (sc_src sc) (S i) = true -> ascii7 x.
  Proof.
    intros E B1 B2. destruct (ascii7_dec x) as [H|H]; [exact H|]. exfalso.
    assert (skipn i (sc_src sc) = x :: skipn (S i) (sc_src sc)) as Es by now apply skipn_nth.
    assert (is_cont x = false) as Xc.
    { unfold is_boundary in B1. rewrite E in B1. apply orb_prop in B1 as [B1|B1]; [|now apply negb_true_iff]. apply Nat.eqb_eq in B1. subst i.
      destruct (utf8_head _ Hu) as [K|(y & r & K & Y)]; rewrite K in E; [discriminate|]. now injection E as ->. }
    destruct (lead_followed (firstn i (sc_src sc)) x (skipn (S i) (sc_src sc))) as (d & t & Ed & D); auto; [rewrite <- Es, firstn_skipn; exact Hu|].
    apply (suffix_next sc (S i) d t) in Ed as [_ Ed]. unfold is_boundary in B2. rewrite Ed, D in B2. discriminate.
  Qed.
  Lemma loop_found stop : 2 <= List.length stop -> Forall ascii7 stop -> forall fuel cur n, boundary_loop (sc_src sc) stop fuel cur = Ok n -> n < List.length (sc_src sc) ->
    exists s s', skipn cur (sc_src sc) = s ++ stop ++ s' /\ Forall ascii7 s.
  Proof.
    intros L2 S7. assert (forall cur, cur < List.length (sc_src sc) ->
      (List.length (sc_src sc) < cur + List.length stop \/ is_boundary (sc_src sc) (cur + List.length stop) = false \/ is_boundary (sc_src sc) cur = true) ->
      (exists s s', skipn (S cur) (sc_src sc) = s ++ stop ++ s' /\ Forall ascii7 s) ->
      exists s s', skipn cur (sc_src sc) = s ++ stop ++ s' /\ Forall ascii7 s) as step.
    { intros cur Lc B (s & s' & E & F).
      destruct (nth_error (sc_src sc) cur) as [x|] eqn:Ex; [|apply nth_error_None in Ex; lia].
      assert (forall j, j < List.length s + List.length stop -> exists y, nth_error (sc_src sc) (S cur + j) = Some y /\ ascii7 y) as At.
      { intros j Hj. rewrite <- nth_error_skipn', E, app_assoc, nth_error_app1 by (rewrite app_length; lia).
        destruct (nth_error (s ++ stop) j) as [y|] eqn:Ey; [|apply nth_error_None in Ey; rewrite app_length in Ey; lia]. exists y. split; [reflexivity|].
        apply nth_error_In in Ey. assert (Forall ascii7 (s ++ stop)) as G by now apply Forall_app. rewrite Forall_forall in G. auto. }
      assert (is_boundary (sc_src sc) cur = true) as Bc.
      { pose proof (f_equal (@List.length ascii) E) as El. rewrite skipn_length, !app_length in El. destruct B as [B|[B|B]]; [lia| |exact B].
        destruct (At (List.length stop - 2)) as (y & Ey & Y); [lia|].
        replace (S cur + (List.length stop - 2)) with (cur + List.length stop - 1) in Ey by lia. apply (utf8_boundary _ _ _ Hu) in Ey; [|exact Y].
        replace (S (cur + List.length stop - 1)) with (cur + List.length stop) in Ey by lia. congruence. }
      assert (is_boundary (sc_src sc) (S cur) = true) as Bs.
      { destruct (At 0) as (y & Ey & Y); [lia|]. rewrite Nat.add_0_r in Ey. apply boundary_ascii with y; [exact Ey|now apply ascii7_cont]. }
      exists (x :: s), s'. split; [rewrite (skipn_nth _ _ _ Ex), E; reflexivity|]. constructor; [|exact F]. now apply (single_byte cur). }
    induction fuel as [|f IH]; intros cur n; cbn [boundary_loop]; destruct (Nat.leb_spec (List.length (sc_src sc)) cur) as [Lc|Lc];
      try (intros H K; injection H as <-; lia).
    - destruct (Nat.ltb_spec (List.length (sc_src sc)) (cur + List.length stop)); [discriminate|]. destruct (negb _); [discriminate|]. destruct (negb _); [discriminate|].
      destruct (beqb _ _) eqn:Eb; [|discriminate]. intros H' _. exists [], (skipn (List.length stop) (skipn cur (sc_src sc))). split; [|constructor].
      apply beqb_eq in Eb. cbn [app]. rewrite <- (firstn_skipn (List.length stop) (skipn cur (sc_src sc))) at 1. now rewrite Eb.
    - destruct (Nat.ltb_spec (List.length (sc_src sc)) (cur + List.length stop)); [intros H' K; apply (step cur); auto; eapply IH; eauto|].
      destruct (is_boundary (sc_src sc) (cur + List.length stop)) eqn:B1; cbn [negb]; [|intros H' K; apply (step cur); auto; eapply IH; eauto].
      destruct (is_boundary (sc_src sc) cur) eqn:B2; cbn [negb]; [|discriminate].
      destruct (beqb _ _) eqn:Eb; [|intros H' K; apply (step cur); auto; eapply IH; eauto].
      intros H' _. exists [], (skipn (List.length stop) (skipn cur (sc_src sc))). split; [|constructor].
      apply beqb_eq in Eb. cbn [app]. rewrite <- (firstn_skipn (List.length stop) (skipn cur (sc_src sc))) at 1. now rewrite Eb.
  Qed.
  Lemma loop_results stop fuel : forall cur, (exists n, boundary_loop (sc_src sc) stop fuel cur = Ok n) \/ boundary_loop (sc_src sc) stop fuel cur = Panic \/ boundary_loop (sc_src sc) stop fuel cur = Hang.
  Proof.
    induction fuel as [|f IH]; intros cur; cbn [boundary_loop]; repeat match goal with |- context[if ?b then _ else _] => destruct b end; eauto.
  Qed.
  Lemma p_until_stop stop ty x r : 2 <= List.length stop -> Forall ascii7 stop -> skipn (sc_cur sc) (sc_src sc) = x :: r -> hd NUL stop <> x ->
    ~ (exists s s', r = s ++ stop ++ s' /\ Forall ascii7 s) -> add_until_stop sc stop ty = Panic.
  Proof.
    intros L2 S7 E Nx N. unfold add_until_stop.
    destruct (loop_results stop (List.length (sc_src sc)) (sc_cur sc)) as [(n & Hn)|[->|Hh]]; [|reflexivity|].
    - rewrite Hn. cbn [bind]. apply beyond. destruct (Nat.le_gt_cases (List.length (sc_src sc)) n) as [K|K]; [lia|]. exfalso. apply N.
      destruct (loop_found stop L2 S7 _ _ _ Hn K) as (s & s' & Es & F). rewrite E in Es. destruct s as [|y s].
      + destruct stop as [|y stop]; [cbn in L2; lia|]. cbn in Es, Nx. congruence.
      + injection Es as -> Es. inversion F. now exists s, s'.
    - exfalso. revert Hh. eapply boundary_loop_no_hang; eauto. lia.
  Qed.
  Lemma p_xref r : c = "<" -> skipn (sc_cur sc) (sc_src sc) = "<" :: r -> ~ (exists t, r = "<" :: "010" :: t) ->
    ~ (exists s s', r = s ++ bs ">>" ++ s' /\ Forall ascii7 s) -> scan_lt sc c = Panic.
  Proof.
    intros Hc E N1 N2. unfold scan_lt. rewrite (o_end_tag_line sc Ht).
    assert (starts_repeated_char_line sc c 3 = false) as ->.
    { apply Bool.not_true_is_false. intros R. unfold starts_repeated_char_line in R. apply andb_prop in R as [_ R]. apply beqb_eq in R.
      apply (peeks_ahead_prefix sc (repeat c (3 - 1) ++ [NL])) in R as [q R]; [|subst c; discriminate]. rewrite E in R. subst c. cbn in R. injection R as ->. apply N1. now exists q. }
    assert (peek sc = "<") as -> by (eapply peek_at_head; [exact E|reflexivity]). cbn [memc existsb Ascii.eqb Bool.eqb andb orb].
    unfold add_cross_reference. eapply p_until_stop; [cbn; lia|repeat constructor|exact E|discriminate|exact N2].
  Qed.
  Lemma p_anchor r : starts_new_line sc = true -> skipn (sc_cur sc) (sc_src sc) = "[" :: r ->
    ~ (exists s s', r = s ++ bs "]]" ++ "010" :: s' /\ Forall ascii7 s) -> scan_lbracket sc = Panic.
  Proof.
    intros L E N2. unfold scan_lbracket. rewrite L. assert (peek sc = "[") as -> by (eapply peek_at_head; [exact E|reflexivity]). cbn [Ascii.eqb Bool.eqb andb].
    unfold add_block_anchor. eapply p_until_stop; [cbn; lia|repeat constructor|exact E|discriminate|]. intros (s & s' & Es & F). apply N2. exists s, s'. split; [|exact F].
    rewrite Es, <- app_assoc. reflexivity.
  Qed.
  Lemma p_tag : ~ In "]" (skipn (sc_cur sc) (sc_src sc)) -> add_tag sc = Panic.
  Proof.
    intros N. unfold add_tag. rewrite Ht. cbn [bind]. pose proof (cur_le sc c A1) as L.
    destruct (advance_until sc "]" eq_refl ltac:(discriminate) L) as [[E1 E2] | (E1 & E2 & E3)].
    - unfold slice. change (sc_cur (bump (advance sc (fun x => negb (x == "]"))) 1)) with (sc_cur (advance sc (fun x => negb (x == "]"))) + 1). rewrite E1.
      assert (List.length (sc_src sc) + 1 <=? List.length (sc_src (bump (advance sc (fun x => negb (x == "]"))) 1)) = false) as -> by (apply Nat.leb_gt; cbn; lia).
      rewrite andb_false_r. reflexivity.
    - exfalso. apply N. set (m := sc_cur (advance sc (fun x => negb (x == "]")))) in *.
      assert (sc_cur sc <= m) as L2 by (unfold m, advance; cbn; lia).
      replace m with (sc_cur sc + (m - sc_cur sc)) in E1 by lia. rewrite <- nth_error_skipn' in E1. eapply nth_error_In. exact E1.
  Qed.
End Panics.

Section Next.
  Variables (src : bytes) (files : list bytes) (pre : list token) (sc : scanner).
  Hypothesis Hy : yields src files pre sc.
  Hypothesis Hnt : no_tags pre.
  Hypothesis Hu : utf8 src.
  Let sc1 := mkSc src (List.length (text_of pre)) (sc_startcol sc) (List.length (text_of pre))
                  (sc_line sc) (sc_scanning sc) false files.

  Lemma p_next c r : src = text_of pre ++ c :: r ->
    next sc = (let* (sc2, t) := scan_token sc1 in Ok (Some t, sc2)) /\ byte_at sc1 = Ok c
    /\ at1 (bump sc1 1) c /\ is_boundary src (List.length (text_of pre)) = true /\ skipn (sc_cur (bump sc1 1)) (sc_src (bump sc1 1)) = r.
  Proof.
    intros E. destruct (next_scan src files pre sc Hy Hnt c r E) as [N1 N2]. split; [exact N1|].
    split; [unfold byte_at; cbn [sc1 sc_src sc_cur]; now rewrite N2|]. split; [split; [exact N2|cbn; lia]|].
    split; [|exact (at_rest src files pre sc c r E)]. destruct (place _ _ _ _ Hy Hnt) as (_ & C & _). rewrite <- C. now apply (yields_boundary _ _ _ _ Hy Hnt).
  Qed.

  Ltac start ch E := destruct (p_next ch _ E) as (-> & Hc & A & Hb & Hs); unfold scan_token; rewrite Hc; cbn [bind]; cbn [Ascii.eqb Bool.eqb memc existsb orb].
  Lemma breaks_panics rest : src = text_of pre ++ rest -> breaks (text_of pre) rest -> next sc = Panic.
  Proof.
    intros E H.
    destruct H as [name Hl F|name F|name F|n Hl Hn|n x r Hl Hn Hx|s x r Hl F N Hx|s x r F N Hx|r N1 N2|r Hl N|kw r K N].
    - start ":" E. rewrite p_attribute; [reflexivity|exact (line_start src files pre sc ":" _ E Hl)|rewrite Hs; exact F].
    - start "{" E. rewrite p_brace; [reflexivity|rewrite Hs; exact F].
    - start "&" E. rewrite p_amp; [reflexivity|rewrite Hs; exact F].
    - destruct n as [|n]; [now elim Hn|]. start "=" E.
      rewrite (p_heading _ "=" A Hu Hb eq_refl n []); [reflexivity|reflexivity|exact (line_start src files pre sc "=" _ E Hl)| |rewrite Hs; symmetry; apply app_nil_r|exact I].
      destruct n as [|[|[|[|[|n]]]]]; try lia. now elim Hn.
    - destruct n as [|n]; [now elim Hn|]. start "=" E.
      rewrite (p_heading _ "=" A Hu Hb eq_refl n (x :: r)); [reflexivity|reflexivity|exact (line_start src files pre sc "=" _ E Hl)| |rewrite Hs; reflexivity|exact Hx].
      destruct n as [|[|[|[|[|n]]]]]; try lia. now elim Hn.
    - start "|" E. rewrite (p_cell _ "|" A Hu Hb s x r); auto.
      destruct Hl as [[Hl Hn]|(b & Hl)]; [left; split; [exact (line_start src files pre sc "|" _ E Hl)|exact Hn]|right].
      assert (nth_error src (List.length b) = Some " ") as Eb by (rewrite E, Hl, <- app_assoc, nth_error_app2, Nat.sub_diag by lia; reflexivity).
      assert (List.length (text_of pre) = S (List.length b)) as Ln by (rewrite Hl, app_length; cbn; lia).
      unfold peek_back, starts_new_line, peek_at. cbn [bump set_cur sc_start sc1]. rewrite Ln.
      change (sc_src (bump sc1 1)) with src. rewrite Eb. split; reflexivity.
    - start "h" E.
      assert (peeks_ahead (bump sc1 1) 3 = bs "ttp") as -> by
        exact (ahead_is src files pre sc Hu [] (bs "ttp") _ ltac:(discriminate) ltac:(repeat constructor) ltac:(discriminate) "h" E).
      rewrite beqb_refl. rewrite (p_link _ "h" A Hu Hb s x r); auto.
    - start "<" E. rewrite (p_xref (bump sc1 1) "<" A Hu eq_refl r); auto.
    - start "[" E. rewrite (p_anchor (bump sc1 1) Hu r); auto. exact (line_start src files pre sc "[" _ E Hl).
    - destruct K as [-> | ->].
      + start "t" E. assert (peeks_ahead (bump sc1 1) 4 = bs "ag::") as -> by
          exact (ahead_is src files pre sc Hu [] (bs "ag::") _ ltac:(discriminate) ltac:(repeat constructor) ltac:(discriminate) "t" E).
        rewrite beqb_refl. rewrite (p_tag _ "t" A eq_refl); [reflexivity|]. rewrite Hs. intros K; repeat (destruct K as [K|K]; [discriminate K|]); exact (N K).
      + start "e" E. assert (peeks_ahead (bump sc1 1) 4 = bs "nd::") as -> by
          exact (ahead_is src files pre sc Hu [] (bs "nd::") _ ltac:(discriminate) ltac:(repeat constructor) ltac:(discriminate) "e" E).
        rewrite beqb_refl. rewrite (p_tag _ "e" A eq_refl); [reflexivity|]. rewrite Hs. intros K; repeat (destruct K as [K|K]; [discriminate K|]); exact (N K).
  Qed.
End Next.

Lemma panics_iff src files pre sc rest :
  yields src files pre sc -> no_tags pre -> utf8 src -> src = text_of pre ++ rest ->
  next sc = Panic <-> breaks (text_of pre) rest.
Proof.
  intros Hy Hn Hu E. split; [apply (next_fails _ _ _ _ _ Hy Hn Hu E)|]. eapply breaks_panics; eassumption.
Qed.
