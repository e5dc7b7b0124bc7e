(** * The scanner as an iterator: invariants over all the tokens yielded *)
From Verif Require Import Base Location Token Scanner SpecScan ScanLemmas ScanFacts.
Local Open Scope char_scope.
Local Open Scope nat_scope.

(** the scanner [next] hands to [scan_token] *)
Definition restart (sc : scanner) : scanner :=
  mkSc (sc_src sc) (sc_cur sc) (sc_startcol sc) (sc_cur sc) (sc_line sc)
       (sc_scanning sc) (sc_tagend sc) (sc_files sc).

(** an ordinary token: the bytes between the two positions of the cursor *)
Definition plain_step (sc sc' : scanner) (t : token) : Prop :=
  exists adv lit,
  sc_src sc' = sc_src sc /\ sc_files sc' = sc_files sc
  /\ sc_scanning sc' = sc_scanning sc /\ sc_tagend sc' = sc_tagend sc
  /\ sc_cur sc < sc_cur sc' <= List.length (sc_src sc)
  /\ is_boundary (sc_src sc) (sc_cur sc) = true
  /\ is_boundary (sc_src sc) (sc_cur sc') = true
  /\ lexeme t = lex (sc_src sc) (sc_cur sc) (sc_cur sc')
  /\ tline t = sc_line sc /\ startcol t = sc_startcol sc
  /\ endcol t = sc_startcol sc + List.length (lexeme t) - 1
  /\ tfiles t = sc_files sc
  /\ sc_line sc' = sc_line sc + adv
  /\ sc_startcol sc' = (if adv =? 0 then sc_startcol sc + List.length (lexeme t) else 1)
  /\ facts (sc_src sc) (sc_cur sc) (sc_cur sc') (ttype t) lit adv
  /\ (ttype t = TCharRef ->
      literal t = match charref_replacement (lexeme t) with
                  | Some s => Some s
                  | None => if lit then Some (lexeme t) else None
                  end)
  /\ (ttype t <> TCharRef -> literal t = if lit then Some (lexeme t) else None).

Definition eof_step (sc sc' : scanner) (t : token) : Prop :=
  List.length (sc_src sc) <= sc_cur sc /\ sc_scanning sc = true
  /\ t = final_token (sc_line sc) (sc_files sc)
  /\ sc' = mkSc (sc_src sc) (sc_start sc) (sc_startcol sc) (sc_cur sc) (sc_line sc)
                false (sc_tagend sc) (sc_files sc).

Lemma facts_text src i n ty lit adv :
  facts src i n ty lit adv -> ty = TBlockAnchor \/ ty = TCrossReference ->
  facts src i n TText lit adv.
Proof.
  intros [H1 H2] Hty. split; [exact H1|]. intros Hn. destruct (H2 Hn) as (_ & Ha & _).
  assert (adv = 0) as -> by (apply Ha; destruct Hty; subst; discriminate).
  repeat split; intros; try discriminate; try congruence;
  try (match goal with H : In _ quotes |- _ =>
         cbn in H; destruct H as [H|[H|[H|[H|[]]]]]; discriminate end);
  match goal with H : heading_type ?k = Some _ |- _ =>
    destruct k as [|[|[|[|[|[|k]]]]]]; discriminate end.
Qed.

Lemma next_some sc t sc' :
  next sc = Ok (Some t, sc') ->
  (sc_cur sc < List.length (sc_src sc)
   /\ (plain_step sc sc' t \/ tag_out (bump (restart sc) 1) sc' t))
  \/ eof_step sc sc' t.
Proof.
  unfold next, is_at_end. intros H.
  destruct (List.length (sc_src sc) <=? sc_cur sc) eqn:He; cbn [negb] in H.
  - right. apply Nat.leb_le in He. destruct (sc_scanning sc) eqn:Hs; [|discriminate].
    injection H as <- <-. repeat split; assumption.
  - left. apply Nat.leb_gt in He. split; [exact He|].
    fold (restart sc) in H. apply bind_ok in H as ((sc2, t2) & H & E). injection E as -> ->.
    pose proof (scan_token_emits (restart sc) eq_refl _ _ H) as [T | (n & ty & lit & adv & N1 & N2 & N3)].
    + now right.
    + left. apply add_token_ok in N3. cbn in N1, N2.
      cbn [restart bump set_cur sc_src sc_start sc_cur sc_line sc_startcol sc_files sc_scanning sc_tagend] in N3.
      destruct N3 as ((A1 & A1') & A2 & A3 & A4 & A5). cbn zeta in A4, A5.
      fold (lex (sc_src sc) (sc_cur sc) n) in A4, A5.
      set (tok := mkTok _ _ _ _ _ _ _) in A4.
      pose proof (validate_fields tok) as (V1 & V2 & V3 & V4 & V5).
      exists adv, lit. rewrite A4, A5. cbn [sc_src sc_files sc_scanning sc_tagend sc_cur sc_line sc_startcol].
      rewrite V1, V2, V3, V4, V5.
      assert (facts (sc_src sc) (sc_cur sc) n (ttype (validate tok)) lit adv) as F.
      { destruct (validate_type tok) as [Vt | [Vt Vt']]; rewrite Vt; [exact N2|].
        eapply facts_text; [exact N2 | exact Vt']. }
      assert (ttype (validate tok) = TCharRef ->
              literal (validate tok) = match charref_replacement (lexeme tok) with
                  | Some s => Some s
                  | None => if lit then Some (lexeme tok) else None
                  end) as C.
      { intros Hc. destruct (validate_type tok) as [Vt | [Vt Vt']]; rewrite Vt in Hc; [|discriminate].
        cbn in Hc. unfold validate, tok. cbn [ttype]. rewrite Hc. cbn [lexeme].
        destruct (charref_replacement _); reflexivity. }
      assert (ttype (validate tok) <> TCharRef ->
              literal (validate tok) = if lit then Some (lexeme tok) else None) as C'.
      { unfold validate. destruct (ttype tok) eqn:Et; try (intros _; reflexivity).
        - destruct (charref_replacement _); [intros K; now elim K | intros _; reflexivity].
        - destruct (_ || _); reflexivity.
        - destruct (_ || _); reflexivity. }
      assert (sc_cur sc < n) by (destruct F as [F _]; exact F).
      repeat match goal with |- _ /\ _ => split end;
        first [reflexivity | assumption | lia | idtac].
Qed.

Lemma next_none sc sc' : next sc = Ok (None, sc') ->
  sc' = sc /\ List.length (sc_src sc) <= sc_cur sc /\ sc_scanning sc = false.
Proof.
  unfold next, is_at_end. intros H.
  destruct (List.length (sc_src sc) <=? sc_cur sc) eqn:He; cbn [negb] in H.
  - apply Nat.leb_le in He. destruct (sc_scanning sc) eqn:Hs; [discriminate|].
    injection H as <-. auto.
  - apply bind_ok in H as ((sc2, t2) & H & E). discriminate.
Qed.

(** ** Invariants *)
Lemma yields_inv src files ts sc :
  yields src files ts sc ->
  sc_src sc = src /\ sc_files sc = files /\ sc_cur sc <= List.length src
  /\ (sc_scanning sc = true -> Forall (fun t => ttype t <> TEof) ts)
  /\ (sc_scanning sc = false ->
      sc_cur sc = List.length src /\
      exists ts' t, ts = ts' ++ [t] /\ ttype t = TEof /\ lexeme t = []
                    /\ Forall (fun t => ttype t <> TEof) ts').
Proof.
  induction 1 as [|ts sc t sc' Hy IH Hn].
  - cbn. repeat split; auto with arith; discriminate.
  - destruct IH as (I1 & I2 & I3 & I4 & I5).
    apply next_some in Hn as [[Hlt [P | T]] | E].
    + destruct P as (adv & lit & P1 & P2 & P3 & P4 & P5 & P6 & P7 & P8 & P9 & P10 & P11 & P12 & P13 & P14 & P15 & _).
      rewrite P1, P2, P3, I1, I2. rewrite I1 in P5. repeat split; auto; try lia.
      * intros Hs. apply Forall_app. split; [auto|]. constructor; [|constructor].
        destruct P15 as [_ P15]. destruct P15 as (_ & _ & _ & _ & P15 & _); [|exact P15].
        rewrite I1. lia.
      * rewrite I1 in Hlt. destruct (I5 ltac:(assumption)) as [I5' _]. lia.
      * rewrite I1 in Hlt. destruct (I5 ltac:(assumption)) as [I5' _]. lia.
    + destruct T as (T1 & T2 & T3 & T3' & T4 & T5 & T6 & T7 & _).
      cbn in T2, T3, T3', T4. rewrite T2, T3, T3', I1, I2. rewrite I1 in T4.
      repeat split; auto; try lia.
      * intros Hs. apply Forall_app. split; [auto|]. constructor; [|constructor].
        destruct T1 as [-> | ->]; discriminate.
      * rewrite I1 in Hlt. destruct (I5 ltac:(assumption)) as [I5' _]. lia.
      * rewrite I1 in Hlt. destruct (I5 ltac:(assumption)) as [I5' _]. lia.
    + destruct E as (E1 & E2 & -> & ->). cbn [sc_src sc_files sc_cur sc_scanning].
      rewrite I1 in E1. repeat split; auto; try discriminate; try lia.
      exists ts, (final_token (sc_line sc) (sc_files sc)). repeat split. auto.
Qed.

Lemma text_of_app a b : text_of (a ++ b) = text_of a ++ text_of b.
Proof. unfold text_of. now rewrite map_app, concat_app. Qed.

Lemma yields_text src files ts sc :
  yields src files ts sc -> no_tags ts ->
  text_of ts = firstn (sc_cur sc) src /\ sc_tagend sc = false.
Proof.
  induction 1 as [|ts sc t sc' Hy IH Hn]; intros Hnt; [cbn; auto|].
  apply Forall_app in Hnt as [Hnt Ht]. apply Forall_inv in Ht.
  destruct (IH Hnt) as [IH1 IH2]. pose proof (yields_inv _ _ _ _ Hy) as (I1 & I2 & I3 & _).
  rewrite text_of_app. unfold text_of at 2. cbn [map List.concat]. rewrite app_nil_r, IH1.
  apply next_some in Hn as [[Hlt [P | T]] | E].
  - destruct P as (adv & lit & P1 & P2 & P3 & P4 & P5 & P6 & P7 & P8 & _).
    split; [|congruence]. rewrite P8. unfold lex. rewrite I1.
    replace (sc_cur sc') with (sc_cur sc + (sc_cur sc' - sc_cur sc)) at 2 by lia.
    now rewrite firstn_add.
  - destruct T as (T1 & _). now elim Ht.
  - destruct E as (E1 & E2 & -> & ->). cbn. now rewrite app_nil_r.
Qed.

(** ** [collect] against [yields] *)
Lemma collect_yields f src files ts0 sc ts :
  yields src files ts0 sc -> collect f sc = Ok ts ->
  exists sc', yields src files (ts0 ++ ts) sc' /\ next sc' = Ok (None, sc').
Proof.
  revert ts0 sc ts. induction f as [|f IH]; intros ts0 sc ts Hy H; [discriminate|].
  cbn [collect] in H. apply bind_ok in H as ((o, sc1) & Hn & H). destruct o as [t|].
  - apply bind_ok in H as (ts1 & Hc & H). injection H as <-.
    destruct (IH (ts0 ++ [t]) sc1 ts1) as (sc' & H1 & H2); [econstructor; eassumption | exact Hc |].
    exists sc'. rewrite <- app_assoc in H1. auto.
  - injection H as <-. rewrite app_nil_r. exists sc. split; [exact Hy|].
    pose proof (next_none _ _ Hn) as [-> _]. exact Hn.
Qed.

Lemma scan_yields src files ts :
  scan_with src files = Ok ts ->
  exists sc, yields src files ts sc /\ next sc = Ok (None, sc).
Proof.
  intros H. apply (collect_yields _ src files [] _ ts) in H; [exact H | constructor].
Qed.

(** ** Fuel: [length src + 2] calls of [next] are enough *)
Definition left (sc : scanner) : nat :=
  List.length (sc_src sc) - sc_cur sc + (if sc_scanning sc then 1 else 0).

Lemma next_left src files ts sc t sc' :
  yields src files ts sc -> next sc = Ok (Some t, sc') -> left sc' < left sc.
Proof.
  intros Hy Hn. pose proof (yields_inv _ _ _ _ Hy) as (I1 & I2 & I3 & I4 & I5).
  unfold left. apply next_some in Hn as [[Hlt [P | T]] | E].
  - destruct P as (adv & lit & P1 & P2 & P3 & P4 & P5 & _). rewrite P1, P3. destruct (sc_scanning sc); lia.
  - destruct T as (T1 & T2 & T3 & T3' & T4 & _). cbn in T2, T3', T4. rewrite T2, T3'. destruct (sc_scanning sc); lia.
  - destruct E as (E1 & E2 & -> & ->). cbn. rewrite E2. lia.
Qed.

Lemma scan_fails_in_next f src files ts0 sc r :
  yields src files ts0 sc -> left sc < f -> collect f sc = r -> (forall ts, r <> Ok ts) ->
  exists ts1 sc', yields src files (ts0 ++ ts1) sc' /\ (forall o, next sc' <> Ok o)
                  /\ match r with
                     | Err e => next sc' = Err e
                     | Panic => next sc' = Panic
                     | Hang => next sc' = Hang
                     | Exit => next sc' = Exit
                     | Ok _ => False
                     end.
Proof.
  revert ts0 sc r. induction f as [|f IH]; intros ts0 sc r Hy Hf Hc Hr; [lia|].
  cbn [collect] in Hc. destruct (next sc) as [[o sc1]| | | |] eqn:Hn; cbn [bind] in Hc.
  - destruct o as [t|]; [|subst r; now elim (Hr [])].
    pose proof (next_left _ _ _ _ _ _ Hy Hn) as Hl.
    destruct (IH (ts0 ++ [t]) sc1 (collect f sc1)) as (ts1 & sc' & H1 & H2 & H3);
      [econstructor; eassumption | lia | reflexivity | |].
    + intros ts E. rewrite E in Hc. cbn in Hc. subst r. now elim (Hr (t :: ts)).
    + exists (t :: ts1), sc'. rewrite <- app_assoc in H1. split; [exact H1|]. split; [exact H2|].
      destruct (collect f sc1); cbn in Hc; subst r; auto.
  - subst r. exists [], sc. rewrite app_nil_r. repeat split; auto. congruence.
  - subst r. exists [], sc. rewrite app_nil_r. repeat split; auto. congruence.
  - subst r. exists [], sc. rewrite app_nil_r. repeat split; auto. congruence.
  - subst r. exists [], sc. rewrite app_nil_r. repeat split; auto. congruence.
Qed.

Lemma yields_length src files ts sc : yields src files ts sc -> List.length ts + left sc <= S (List.length src).
Proof.
  induction 1 as [|ts sc t sc' Hy IH Hn].
  - unfold left. cbn. lia.
  - pose proof (next_left _ _ _ _ _ _ Hy Hn). rewrite app_length. cbn. lia.
Qed.
