(** * The theorems about the scanner, assembled *)
From Verif Require Import Base Location Token Scanner SpecScan ScanLemmas ScanFacts ScanMain ScanMain2
  ScanLine.
Local Open Scope char_scope.
Local Open Scope nat_scope.

Lemma scan_lossless src files ts :
  scan_with src files = Ok ts -> no_tags ts -> text_of ts = src.
Proof.
  intros H Hn. apply scan_yields in H as (sc & Hy & Hnx).
  apply next_none in Hnx as (_ & L & _).
  pose proof (yields_inv _ _ _ _ Hy) as (I1 & _). rewrite I1 in L.
  destruct (yields_text _ _ _ _ Hy Hn) as [-> _]. now apply firstn_all2.
Qed.

Lemma stream_lossless src files ts sc :
  yields src files ts sc -> no_tags ts -> exists rest, src = text_of ts ++ rest.
Proof.
  intros Hy Hn. destruct (yields_text _ _ _ _ Hy Hn) as [-> _].
  exists (skipn (sc_cur sc) src). now rewrite firstn_skipn.
Qed.

Lemma next_nonempty src files ts sc t sc' :
  yields src files ts sc -> next sc = Ok (Some t, sc') -> ttype t = TEof \/ lexeme t <> [].
Proof.
  intros Hy Hn. pose proof (yields_inv _ _ _ _ Hy) as (I1 & I2 & I3 & _).
  apply next_some in Hn as [[Hlt [P | T]] | E].
  - right. destruct P as (adv & lit & P1 & P2 & P3 & P4 & P5 & P6 & P7 & P8 & _).
    intros K. rewrite K in P8. assert (List.length (lex (sc_src sc) (sc_cur sc) (sc_cur sc')) = 0) as L
      by now rewrite <- P8.
    unfold lex in L. rewrite firstn_length, skipn_length in L. lia.
  - right. destruct T as (_ & T2 & _ & _ & T4 & T5 & _ & _ & _ & s & e & T8 & T9 & T10 & T11 & T12 & _).
    intros K. rewrite K in T12. assert (List.length (firstn (e - s) (skipn s (sc_src (bump (restart sc) 1)))) = 0) as L
      by now rewrite <- T12.
    rewrite firstn_length, skipn_length in L. cbn in *. lia.
  - left. destruct E as (_ & _ & -> & _). reflexivity.
Qed.

Lemma yields_nonempty src files ts sc :
  yields src files ts sc -> Forall (fun t => ttype t = TEof \/ lexeme t <> []) ts.
Proof.
  induction 1 as [|ts sc t sc' Hy IH Hn]; [constructor|].
  apply Forall_app. split; [exact IH|]. constructor; [|constructor].
  eapply next_nonempty; eassumption.
Qed.

Lemma scan_finite src files ts :
  scan_with src files = Ok ts ->
  exists init e, ts = init ++ [e] /\ ttype e = TEof /\ lexeme e = []
    /\ Forall (fun t => ttype t <> TEof /\ lexeme t <> []) init
    /\ List.length ts <= List.length src + 1
    /\ exists sc, yields src files ts sc /\ next sc = Ok (None, sc).
Proof.
  intros H. apply scan_yields in H as (sc & Hy & Hnx). pose proof Hnx as Hnx'.
  apply next_none in Hnx as (_ & L & Hs).
  pose proof (yields_inv _ _ _ _ Hy) as (I1 & I2 & I3 & _ & I5).
  destruct (I5 Hs) as (_ & init & e & -> & E1 & E2 & E3).
  exists init, e. repeat split; auto.
  - pose proof (yields_nonempty _ _ _ _ Hy) as Hne. apply Forall_app in Hne as [Hne _].
    rewrite Forall_forall in *. intros t Ht. specialize (Hne t Ht). specialize (E3 t Ht). tauto.
  - pose proof (yields_length _ _ _ _ Hy). lia.
  - exists sc. auto.
Qed.

Lemma block_markers_only src files ts sc pre t post :
  yields src files ts sc -> ts = pre ++ t :: post -> no_tags (pre ++ [t]) ->
  block_token (ttype t) ->
  at_line_start (text_of pre) /\
  exists after, src = text_of pre ++ lexeme t ++ after /\ marks_block (ttype t) (lexeme t) after.
Proof.
  intros Hy E Hnt Hb.
  assert (ttype t <> TEof) as Hne by (intros K; rewrite K in Hb; exact Hb).
  destruct (token_place _ _ _ _ _ _ _ Hy E Hnt Hne) as (sc1 & sc2 & Y1 & N & P & C & S & _ & S1).
  destruct P as (adv & lit & P1 & P2 & P3 & P4 & P5 & P6 & P7 & P8 & P9 & P10 & P11 & P12 & P13 & P14 & P15 & _).
  destruct P15 as [Q1 Q]. specialize (Q ltac:(lia)). rewrite S1 in *.
  destruct Q as (_ & _ & _ & _ & _ & Qh & Qd & Qo & Qt & _ & Qu & Qn & Qc & Qm & Qa & _).
  rewrite <- P8 in *.
  assert (forall r, nth_error src (sc_cur sc2) = Some NL -> r = skipn (sc_cur sc2) src ->
                    exists r', r = NL :: r') as K.
  { intros r H ->. rewrite (skipn_nth _ _ _ H). eauto. }
  assert (nlstart src (sc_cur sc1) -> at_line_start (text_of pre)) as A.
  { intros H. eapply nlstart_before; [exact H | exact S | exact C]. }
  remember (skipn (sc_cur sc2) src) as after eqn:Ea.
  assert (forall c, delimiter_of (ttype t) = Some c -> at_line_start (text_of pre) /\
     exists after0, src = text_of pre ++ lexeme t ++ after0 /\ marks_block (ttype t) (lexeme t) after0) as D.
  { intros c Hc. destruct (Qd c Hc) as (D1 & D2 & D3). split; [now apply A|].
    destruct (K after D3 eq_refl) as [r' Hr]. exists after. split; [exact S|].
    rewrite D2, Hr. now constructor. }
  assert (forall k, heading_type k = Some (ttype t) -> at_line_start (text_of pre) /\
     exists after0, src = text_of pre ++ lexeme t ++ after0 /\ marks_block (ttype t) (lexeme t) after0) as Hh.
  { intros k Hk. destruct (Qh k Hk) as (D1 & x & D2 & D3). split; [now apply A|].
    exists after. split; [exact S|]. rewrite D2. now apply mb_heading. }
  destruct (ttype t) eqn:Ety; try (elim Hb);
    try (eapply D; reflexivity);
    try (first [apply (Hh 1); reflexivity | apply (Hh 2); reflexivity | apply (Hh 3); reflexivity
               | apply (Hh 4); reflexivity | apply (Hh 5); reflexivity]).
  all: match goal with
       | H : ?x = ?x -> _ |- _ => specialize (H eq_refl); destruct H as [B1 B2]
       end; split; [now apply A|]; exists after; (split; [exact S|]).
  all: try (destruct B2 as [B2 B3]; destruct (K after B3 eq_refl) as [r' Hr]; rewrite B2, Hr; constructor).
  all: try (destruct B2 as (r & B2 & B3); rewrite B2; constructor; exact B3).
  all: try (destruct B2 as (r & B2); rewrite B2; constructor).
  all: rewrite B2; constructor.
Qed.

Lemma replacement_table lx s :
  charref_replacement lx = Some s -> In (lx, s) replacements.
Proof.
  unfold charref_replacement. intros H.
  repeat match type of H with
  | (if beqb ?a ?b then _ else _) = _ =>
      let E := fresh in destruct (beqb a b) eqn:E;
      [apply beqb_eq in E; subst a; injection H as <-; cbn; tauto|]
  end. discriminate.
Qed.

Lemma replacement_complete lx :
  In lx (map fst replacements) -> charref_replacement lx <> None.
Proof.
  cbn. intros H. repeat destruct H as [<-|H]; try discriminate. elim H.
Qed.

Lemma replacements_only src files ts sc t :
  yields src files ts sc -> In t ts ->
  (ttype t = TCharRef ->
     In (lexeme t, token_text t) replacements
     \/ token_text t = lexeme t
        /\ exists name, lexeme t = "&" :: name ++ [";"]
                        /\ Forall (fun c => is_alnum_latin1 c = true) name)
  /\ (forall s s', In (ttype t, (s, s')) quotes -> lexeme t = s /\ token_text t = s')
  /\ (ttype t <> TCharRef -> ~ In (ttype t) (map fst quotes) -> token_text t = lexeme t).
Proof.
  intros Hy Hin. apply in_split in Hin as (pre & post & E).
  destruct (yields_split _ _ _ _ Hy _ _ _ E) as (sc1 & sc2 & Y1 & N & _).
  assert (forall l, (literal t = if l : bool then Some (lexeme t) else None) ->
            ~ In (ttype t) (map fst quotes) -> token_text t = lexeme t) as L.
  { intros l Hl Hq. unfold token_text. rewrite Hl.
    destruct (ttype t); try (elim Hq; cbn; tauto); destruct l; reflexivity. }
  apply next_some in N as [[Hlt [P | T]] | Ee].
  - destruct P as (adv & lit & P1 & P2 & P3 & P4 & P5 & P6 & P7 & P8 & P9 & P10 & P11 & P12 & P13 & P14 & P15 & P16 & P17).
    destruct P15 as [Q1 Q]. specialize (Q ltac:(lia)).
    destruct Q as (_ & _ & _ & _ & _ & Qh & Qd & Qo & Qt & Qr & Qu & Qn & Qc & Qm & Qa & Qq & _).
    rewrite <- P8 in *. split; [|split].
    + intros Hc. specialize (P16 Hc).
      assert (token_text t = match literal t with Some s => s | None => lexeme t end) as Ht
        by (unfold token_text; now rewrite Hc).
      destruct (charref_replacement (lexeme t)) as [s|] eqn:Er.
      * left. rewrite Ht, P16. now apply replacement_table.
      * right. destruct (Qr Hc) as [Qr' | [-> Qr']]; [now apply replacement_complete in Qr'|].
        rewrite Ht, P16. auto.
    + intros s s' Hq. split; [eauto|]. unfold token_text.
      destruct Hq as [Hq|[Hq|[Hq|[Hq|[]]]]]; injection Hq as <- _ <-; reflexivity.
    + intros Hc Hq. specialize (P17 Hc). eapply L; eauto.
  - destruct T as (T1 & _ & _ & _ & _ & _ & _ & _ & T7 & _).
    assert (~ In (ttype t) (map fst quotes)) as Hq.
    { destruct T1 as [-> | ->]; cbn; intuition discriminate. }
    split; [|split].
    + intros K. destruct T1 as [T1|T1]; rewrite K in T1; discriminate.
    + intros s s' K. elim Hq. now apply in_map with (f := fst) in K.
    + intros _ _. now apply (L true).
  - destruct Ee as (_ & _ & -> & _). cbn. repeat split; intros; try discriminate;
    intuition discriminate.
Qed.
