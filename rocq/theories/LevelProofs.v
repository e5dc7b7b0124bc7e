(** * Lemmas on level offsets *)
From Verif Require Import Base World Location Token Scanner Meta Inline Block Asg Parser SpecScan SpecDoc SpecLevel
  ScanLemmas DocGraph.
Local Open Scope char_scope.
Local Open Scope nat_scope.

Lemma digit_iff c d : digit c d <-> is_digit c = true /\ d = (N_of_ascii c - 48)%N.
Proof.
  unfold digit, is_digit. cbn zeta. split.
  - intros [E L]. split; [|lia]. apply andb_true_intro. split; apply N.leb_le; lia.
  - intros [E ->]. apply andb_prop in E as [E1 E2]. apply N.leb_le in E1, E2. lia.
Qed.
Lemma digits_val_snoc s c : forall acc, digits_val acc (s ++ [c])
  = match digits_val acc s with
    | Some n => if is_digit c then Some (n * 10 + (N_of_ascii c - 48))%N else None
    | None => None
    end.
Proof. induction s as [|x s IH]; intros acc; cbn; [reflexivity|]. destruct (is_digit x); [apply IH|reflexivity]. Qed.
Lemma decimal_ne s n : decimal s n -> s <> [].
Proof. intros H. destruct H as [|s]; [discriminate|]. destruct s; discriminate. Qed.
Lemma decimal_val s n : decimal s n <-> s <> [] /\ digits_val 0 s = Some n.
Proof.
  split.
  - intros H. split; [now apply decimal_ne in H|]. induction H as [c d H|s n c d H IH Hd].
    + apply digit_iff in H as [E ->]. cbn. now rewrite E.
    + apply digit_iff in Hd as [E ->]. rewrite digits_val_snoc, IH, E. f_equal. lia.
  - revert n. induction s as [|c s IH] using rev_ind; intros n [N E]; [congruence|].
    rewrite digits_val_snoc in E. destruct (digits_val 0 s) as [m|] eqn:Es; [|discriminate].
    destruct (is_digit c) eqn:Ec; [|discriminate]. injection E as <-.
    destruct s as [|x s].
    + cbn in Es. injection Es as <-. cbn. constructor. apply digit_iff. split; [assumption|lia].
    + replace (m * 10 + (N_of_ascii c - 48))%N with (10 * m + (N_of_ascii c - 48))%N by lia.
      constructor; [apply IH; split; [discriminate|reflexivity]|]. apply digit_iff. split; [assumption|reflexivity].
Qed.
Lemma decimal_head c s n : decimal (c :: s) n -> c <> "+" /\ c <> "-".
Proof.
  intros H. apply decimal_val in H as [_ H]. cbn in H. destruct (is_digit c) eqn:E; [|discriminate].
  split; intros ->; discriminate.
Qed.

Lemma wrap_signed k : signed8 k (wrap_i8 k).
Proof.
  unfold signed8, wrap_i8. pose proof (Z.mod_pos_bound (k + 128) 256). split; [lia|].
  exists ((k + 128) / 256)%Z. pose proof (Z.div_mod (k + 128) 256). lia.
Qed.
Lemma signed_unique k y z : signed8 k y -> signed8 k z -> y = z.
Proof. intros (H1 & q & E1) (H2 & r & E2). lia. Qed.

(** the value string decides *)
Lemma level_offset_set w v k p : offset_value v (inl k) ->
  exists z, signed8 k z /\ parse_level_offset w v p = Ok (set_offset z p).
Proof.
  intros H. exists (wrap_i8 k). split; [apply wrap_signed|].
  assert (exists n, k = Z.of_N n /\ parse_usize v = Some n) as (n & -> & E).
  { inversion H as [s n D L|s n D L|]; subst; exists n; (split; [reflexivity|]); apply decimal_val in D as [N D].
    - unfold parse_usize. destruct v as [|c r]; [congruence|].
      assert (Ascii.eqb c "+" = false) as ->. { apply Ascii.eqb_neq. apply (decimal_head c r n). now apply decimal_val. }
      rewrite D. apply N.ltb_lt in L. now rewrite L.
    - unfold parse_usize. change (Ascii.eqb "+" "+") with true. cbv beta iota zeta. destruct s; [congruence|]. rewrite D. apply N.ltb_lt in L. now rewrite L. }
  unfold parse_level_offset. now rewrite E.
Qed.
Lemma level_offset_add w v k p : offset_value v (inr k) ->
  parse_level_offset w v p = let* o := add_i8 w (p_offset p) k in Ok (set_offset o p).
Proof.
  intros H. inversion H as [| |s n D L]. subst. apply decimal_val in D as [N D].
  unfold parse_level_offset.
  assert (parse_usize ("-" :: s) = None) as -> by reflexivity.
  assert (parse_i8 ("-" :: s) = Some (- Z.of_N n)%Z) as ->; [|reflexivity].
  unfold parse_i8. cbn. destruct s; [congruence|]. rewrite D.
  replace ((-128 <=? - Z.of_N n)%Z) with true by (symmetry; apply Z.leb_le; lia).
  replace ((- Z.of_N n <=? 127)%Z) with true by (symmetry; apply Z.leb_le; lia). reflexivity.
Qed.
Lemma level_offset_other w v p : (forall x, ~ offset_value v x) -> parse_level_offset w v p = Err (EInternal []).
Proof.
  intros H. unfold parse_level_offset. destruct (parse_usize v) as [n|] eqn:U.
  { exfalso. unfold parse_usize in U. destruct v as [|c r]; [discriminate|]. destruct (Ascii.eqb c "+") eqn:P.
    - apply Ascii.eqb_eq in P as ->. destruct r as [|x r]; [discriminate|]. destruct (digits_val 0 (x :: r)) eqn:D; [|discriminate].
      destruct (n0 <? 2 ^ 64)%N eqn:L; [|discriminate]. eapply H. apply (offset_plus (x :: r)); [apply decimal_val; split; [discriminate|exact D]|].
      now apply N.ltb_lt.
    - destruct (digits_val 0 (c :: r)) eqn:D; [|discriminate]. destruct (n0 <? 2 ^ 64)%N eqn:L; [|discriminate].
      eapply H. apply (offset_set (c :: r)); [apply decimal_val; split; [discriminate|exact D]|]. now apply N.ltb_lt. }
  destruct (parse_i8 v) as [z|] eqn:I; [|reflexivity]. exfalso. unfold parse_i8 in I. destruct v as [|c r]; [discriminate|].
  destruct (Ascii.eqb c "-") eqn:M; cbn [orb] in I.
  - apply Ascii.eqb_eq in M as ->. destruct r as [|x r]; [discriminate|]. destruct (digits_val 0 (x :: r)) eqn:D; [|discriminate].
    destruct (_ && _)%bool eqn:L; [|discriminate]. apply andb_prop in L as [L1 L2]. apply Z.leb_le in L1, L2.
    eapply H. apply (offset_minus (x :: r)); [apply decimal_val; split; [discriminate|exact D]|]. lia.
  - unfold parse_usize in U. destruct (Ascii.eqb c "+") eqn:P.
    + destruct r as [|x r]; [discriminate|]. destruct (digits_val 0 (x :: r)); [|discriminate].
      destruct (_ && _)%bool eqn:L; [|discriminate]. apply andb_prop in L as [L1 L2]. apply Z.leb_le in L1, L2.
      destruct (n <? 2 ^ 64)%N eqn:B; [discriminate|]. apply N.ltb_ge in B. lia.
    + destruct (digits_val 0 (c :: r)); [|discriminate].
      destruct (_ && _)%bool eqn:L; [|discriminate]. apply andb_prop in L as [L1 L2]. apply Z.leb_le in L1, L2.
      destruct (n <? 2 ^ 64)%N eqn:B; [discriminate|]. apply N.ltb_ge in B. lia.
Qed.

Lemma offset_entry_step w fuel t v p : offset_entry t v -> p_open_type p = None ->
  token_into w fuel t p = parse_level_offset w v p.
Proof.
  intros (Ty & Lx & Lt & [(c & r & Ec & Gc) (d & r' & Ed & Gd)] & Nc & Nl) O.
  assert (token_into w fuel t p = parse_attribute w t p) as ->.
  { destruct fuel; cbn [token_into]; unfold can_be_in_document_header; rewrite Ty; destruct (p_header p); cbn;
      unfold pre_dispatch; rewrite O; unfold dispatch; rewrite Ty; reflexivity. }
  unfold parse_attribute. unfold token_text. rewrite Ty, Lt, Lx.
  assert (split_on (fun c => Ascii.eqb c ":") (bs ":leveloffset: " ++ v) = [[]; bs "leveloffset"; " " :: v]) as E.
  { change (bs ":leveloffset: " ++ v) with ([] ++ ":" :: bs "leveloffset" ++ ":" :: " " :: v).
    rewrite split_first; [|intros x []|reflexivity]. rewrite split_first; [| |reflexivity].
    - rewrite split_none; [reflexivity|]. intros x K. apply Ascii.eqb_neq. intros ->. destruct K as [K|K]; [discriminate|contradiction].
    - intros x K. cbn in K. repeat (destruct K as [<-|K]; [reflexivity|]). contradiction. }
  unfold split_terminator. rewrite E. cbn [rev app last].
  subst v. destruct (trim_graphic c r d r' Ed Gc Gd) as [_ T]. change (trim (" " :: c :: r) = c :: r) in T. rewrite T.
  destruct (beqb (bs "leveloffset") (c :: r)) eqn:B; [apply beqb_eq in B; congruence|]. now rewrite beqb_refl.
Qed.

(** what an entry ":leveloffset: v" does *)
Lemma offset_exact w fuel t v p : offset_entry t v -> p_open_type p = None ->
  (forall k, offset_value v (inl k) -> exists z, signed8 k z /\ token_into w fuel t p = Ok (set_offset z p))
  /\ (forall k, offset_value v (inr k) ->
        ((-128 <= p_offset p + k <= 127)%Z -> token_into w fuel t p = Ok (set_offset (p_offset p + k)%Z p))
        /\ (~ (-128 <= p_offset p + k <= 127)%Z -> w_checked w = true -> token_into w fuel t p = Panic)
        /\ (~ (-128 <= p_offset p + k <= 127)%Z -> w_checked w = false ->
              exists z, signed8 (p_offset p + k) z /\ token_into w fuel t p = Ok (set_offset z p)))
  /\ ((forall x, ~ offset_value v x) -> token_into w fuel t p = Err (EInternal [])).
Proof.
  intros E O. rewrite (offset_entry_step w fuel t v p E O). split; [|split].
  - intros k. apply level_offset_set.
  - intros k H. rewrite (level_offset_add w v k p H). unfold add_i8, fits_i8.
    destruct ((-128 <=? p_offset p + k)%Z && (p_offset p + k <=? 127)%Z) eqn:F.
    + apply andb_prop in F as [F1 F2]. apply Z.leb_le in F1, F2. split; [reflexivity|]. split; lia.
    + assert (~ (-128 <= p_offset p + k <= 127)%Z) as K.
      { intros K. apply andb_false_iff in F as [F|F]; apply Z.leb_gt in F; lia. }
      split; [intros; contradiction|]. split; intros _ C; rewrite C; [reflexivity|].
      exists (wrap_i8 (p_offset p + k)). split; [apply wrap_signed|reflexivity].
  - apply level_offset_other.
Qed.

(** ** Headings *)
Lemma heading_level w t p n : heading (ttype t) n -> (-128 <= p_offset p <= 127)%Z ->
  get_heading_level w t p
  = if ((1 <=? n - 1 + p_offset p) && (n - 1 + p_offset p <=? 4))%Z then Ok (Z.to_nat (n - 1 + p_offset p))
    else if fits_i8 (n - 1 + p_offset p) || negb (w_checked w) then Err (EHeadingOffset (tline t) (p_offset p))
    else Panic.
Proof.
  intros H R. unfold get_heading_level. remember (ttype t) as ty eqn:Ty.
  assert (forall o z, (-128 <= o <= 127)%Z -> (0 <= z <= 4)%Z -> (z + o > 127)%Z -> (wrap_i8 (z + o) <= 0)%Z) as W.
  { intros o z H1 H2 H3. unfold wrap_i8.
    replace (z + o + 128)%Z with (z + o - 128 + 1 * 256)%Z by lia. rewrite Z.mod_add by lia. rewrite Z.mod_small; lia. }
  assert (forall z, (0 <= z <= 4)%Z -> n = (z + 1)%Z ->
    (let* level := add_i8 w z (p_offset p) in
     if ((1 <=? level) && (level <=? 4))%Z then Ok (Z.to_nat level) else Err (EHeadingOffset (tline t) (p_offset p)))
    = if ((1 <=? n - 1 + p_offset p) && (n - 1 + p_offset p <=? 4))%Z then Ok (Z.to_nat (n - 1 + p_offset p))
      else if fits_i8 (n - 1 + p_offset p) || negb (w_checked w) then Err (EHeadingOffset (tline t) (p_offset p)) else Panic) as K.
  { intros z Z1 ->. replace (z + 1 - 1 + p_offset p)%Z with (z + p_offset p)%Z by lia.
    unfold add_i8. destruct (fits_i8 (z + p_offset p)) eqn:F; cbn [orb bind]; [reflexivity|].
    assert (z + p_offset p > 127)%Z as G.
    { unfold fits_i8 in F. apply andb_false_iff in F as [F|F]; apply Z.leb_gt in F; lia. }
    replace ((z + p_offset p <=? 4)%Z) with false by (symmetry; apply Z.leb_gt; lia). rewrite andb_false_r.
    destruct (w_checked w); cbn [negb]; [reflexivity|]. cbn [bind].
    specialize (W (p_offset p) z R Z1 G).
    replace ((1 <=? wrap_i8 (z + p_offset p))%Z) with false by (symmetry; apply Z.leb_gt; lia). reflexivity. }
  destruct H; cbn [heading_base tt_eqb]; try (apply (K _); lia).
  replace (tt_eqb THeading1 THeading1) with true by reflexivity. cbn [bind].
  replace (1 - 1 + p_offset p)%Z with (p_offset p) by lia.
  destruct ((1 <=? p_offset p) && (p_offset p <=? 4))%Z; [reflexivity|].
  replace (fits_i8 (p_offset p)) with true; [reflexivity|]. unfold fits_i8. symmetry. apply andb_true_intro. split; apply Z.leb_le; lia.
Qed.

Lemma heading_step w fuel t p n : heading (ttype t) n -> p_header p = None -> p_open_type p = None ->
  (n = 1 -> p_offset p <> 0)%Z -> token_into w fuel t p = parse_section_headings w t p.
Proof.
  intros H Hh O Hn. remember (ttype t) as ty eqn:Ty.
  destruct fuel; cbn [token_into]; rewrite Hh; cbn [bind]; unfold pre_dispatch; rewrite O; unfold dispatch;
    destruct H; rewrite <- Ty; try reflexivity;
    unfold parse_title; (destruct (p_offset p =? 0)%Z eqn:Z0; [apply Z.eqb_eq in Z0; lia|reflexivity]).
Qed.

Lemma push_top b p p' : push_block_to_stack b p = Ok p' -> p_in_cont p = false ->
  exists m r, p_bstack p' = Blk (b_head b) m (b_kids b) (b_locs b) :: r.
Proof.
  unfold push_block_to_stack. intros H C. rewrite C in H. cbn [andb] in H. destruct (p_meta p) as [m|].
  - unfold add_metadata in H. destruct (meta_is_empty m).
    + cbn in H. injection H as <-. cbn. destruct b as [h mm k l]. cbn. eauto.
    + destruct b as [h mm k l]. destruct h; cbn in H; try discriminate H; injection H as <-; cbn; eauto.
  - injection H as <-. destruct b as [h mm k l]. cbn. eauto.
Qed.

Lemma asg_push_cont b p p' : p_asg_push b p = Ok p' -> p_in_cont p' = p_in_cont p.
Proof. unfold p_asg_push. destruct (asg_push_block (p_asg p) b); cbn; intros H; try discriminate. now injection H as <-. Qed.
Lemma add_last_cont p p' : add_last_to_block_stack_or_graph p = Ok p' -> p_in_cont p' = p_in_cont p.
Proof.
  unfold add_last_to_block_stack_or_graph. destruct (p_bstack p) as [|b [|l r]]; [discriminate| |].
  - intros H. now apply asg_push_cont in H.
  - destruct (takes_block l b).
    + destruct (push_block l b); cbn; intros H; try discriminate. now injection H as <-.
    + intros H. now apply asg_push_cont in H.
Qed.

Lemma heading_exact w fuel t p n : heading (ttype t) n -> p_header p = None -> p_open_type p = None ->
  p_in_cont p = false -> (-128 <= p_offset p <= 127)%Z -> (n = 1 -> p_offset p <> 0)%Z ->
  let level := (n - 1 + p_offset p)%Z in
  ((1 <= level <= 4)%Z -> forall p', token_into w fuel t p = Ok p' ->
     exists m r, p_bstack p' = Blk (HSection [] [] (Z.to_nat level)) m [] [first_location t] :: r)
  /\ (~ (1 <= level <= 4)%Z -> (level <= 127)%Z \/ w_checked w = false ->
      token_into w fuel t p = Err (EHeadingOffset (tline t) (p_offset p)))
  /\ ((127 < level)%Z -> w_checked w = true -> token_into w fuel t p = Panic).
Proof.
  intros H Hh O C R Hn level. rewrite (heading_step w fuel t p n H Hh O Hn). unfold parse_section_headings.
  rewrite (heading_level w t p n H R). fold level.
  assert (-128 <= level)%Z as Lo by (unfold level; destruct H; lia).
  split; [|split].
  - intros [L1 L2] p' E. apply Z.leb_le in L1, L2. rewrite L1, L2 in E. cbn [andb bind] in E.
    assert (exists q, p_in_cont q = false /\ exists q', push_block_to_stack (new_section (Z.to_nat level) (first_location t)) q = Ok q'
      /\ p_bstack p' = p_bstack q') as (q & Cq & q' & Eq & Sq).
    { destruct (p_bstack p) as [|b r] eqn:B.
      - cbn [bind] in E. apply bind_ok in E as (q' & E1 & E2). exists p. split; [assumption|]. exists q'. split; [assumption|].
        now injection E2 as <-.
      - destruct (is_section b).
        + apply bind_ok in E as (q & E1 & E). apply bind_ok in E as (q' & E2 & E3).
          exists q. split; [now rewrite (add_last_cont _ _ E1)|]. exists q'. split; [assumption|]. now injection E3 as <-.
        + cbn [bind] in E. apply bind_ok in E as (q' & E1 & E2). exists p. split; [assumption|]. exists q'. split; [assumption|].
          now injection E2 as <-. }
    apply push_top in Eq as (m & r & Eq); [|assumption]. rewrite Sq, Eq. cbn. eauto.
  - intros N D. destruct ((1 <=? level) && (level <=? 4))%Z eqn:L.
    { apply andb_prop in L as [L1 L2]. apply Z.leb_le in L1, L2. lia. }
    replace (fits_i8 level || negb (w_checked w)) with true; [reflexivity|]. symmetry. apply orb_true_iff.
    destruct D as [D|D]; [left|right; now rewrite D]. unfold fits_i8. apply andb_true_intro. split; apply Z.leb_le; lia.
  - intros G D. replace ((level <=? 4)%Z) with false by (symmetry; apply Z.leb_gt; lia). rewrite andb_false_r.
    replace (fits_i8 level) with false; [now rewrite D|]. symmetry. unfold fits_i8. apply andb_false_iff. right. apply Z.leb_gt. lia.
Qed.

Lemma offset_minus_step w fuel t s k p :
  offset_entry t ("-" :: s) -> decimal s k -> p_open_type p = None ->
  (k <= 128)%N -> (-128 <= p_offset p <= 127)%Z -> (-128 <= p_offset p - Z.of_N k)%Z ->
  token_into w fuel t p = Ok (set_offset (p_offset p - Z.of_N k)%Z p).
Proof.
  intros E D O L R R'. destruct (offset_exact w fuel t _ p E O) as (_ & H & _).
  destruct (H _ (offset_minus s k D L)) as (K & _). rewrite K by lia. f_equal.
Qed.
