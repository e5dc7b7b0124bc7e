(** * Simple documents: what the parser makes of their tokens *)
From Verif Require Import Base World Location Token Scanner Meta Inline Block Asg Parser SpecScan SpecStart SpecLoc
  SpecDoc ScanLemmas ScanStart ScanDoc LocProofs DocProofs.
Local Open Scope char_scope.
Local Open Scope nat_scope.
Local Arguments reconcile : simpl never.
Local Arguments token_locations : simpl never.
Local Arguments token_text : simpl never.

(** ** Trimming *)
Lemma chars_ne s : Forall (fun x => x <> []) (chars s).
Proof.
  induction s as [|c s IH]; [constructor|]. cbn. destruct (chars s) as [|[|d w] ws].
  - constructor; [discriminate|constructor].
  - constructor; [discriminate|constructor].
  - inversion IH. destruct (is_cont d); repeat (constructor; [discriminate|]); assumption.
Qed.
Lemma unchars_chars s : unchars (chars s) = s.
Proof.
  induction s as [|c s IH]; [reflexivity|]. cbn. pose proof (chars_ne s) as N.
  destruct (chars s) as [|[|d w] ws].
  - cbn in IH. now subst.
  - inversion N. congruence.
  - cbn in IH. destruct (is_cont d); cbn; now rewrite <- IH.
Qed.
Lemma chars_head c s : exists w ws, chars (c :: s) = (c :: w) :: ws.
Proof. cbn. destruct (chars s) as [|[|d w] ws]; [now eexists _, _..|]. destruct (is_cont d); now eexists _, _. Qed.
Lemma chars_snoc s d : is_cont d = false -> chars (s ++ [d]) = chars s ++ [[d]].
Proof.
  intros H. induction s as [|c s IH]; [reflexivity|]. cbn. rewrite IH. pose proof (chars_ne s) as N.
  destruct (chars s) as [|[|e w] ws]; cbn.
  - now rewrite H.
  - inversion N. congruence.
  - destruct (is_cont e); reflexivity.
Qed.
Lemma graphic_facts c : graphic c -> is_cont c = false /\ forall w, is_ws (c :: w) = false.
Proof.
  unfold graphic. intros H. destruct c as [[] [] [] [] [] [] [] []]; try (cbn in H; lia); split; try reflexivity;
    intros w; unfold is_ws; cbn [map]; destruct (map N_of_ascii w); reflexivity.
Qed.
Lemma trim_graphic c r d r' : c :: r = r' ++ [d] -> graphic c -> graphic d ->
  trim (c :: r) = c :: r /\ trim (SP :: c :: r) = c :: r.
Proof.
  intros E Hc Hd. apply graphic_facts in Hc as [C1 C2]. apply graphic_facts in Hd as [D1 D2].
  destruct (chars_head c r) as (w & ws & Ec).
  assert (chars (SP :: c :: r) = [SP] :: chars (c :: r)) as Es.
  { cbn [chars] in *. now rewrite Ec, C1. }
  assert (unchars (rev (drop_while is_ws (rev (chars (c :: r))))) = c :: r) as K.
  { rewrite E, chars_snoc by assumption. rewrite rev_app_distr. cbn [rev app drop_while].
    rewrite D2. cbn [rev]. rewrite rev_involutive, <- chars_snoc by assumption. apply unchars_chars. }
  assert (drop_while is_ws (chars (c :: r)) = chars (c :: r)) as Dr.
  { rewrite Ec. cbn [drop_while]. now rewrite C2. }
  unfold trim. rewrite Es. split; [now rewrite Dr|].
  cbn [drop_while]. replace (is_ws [SP]) with true by reflexivity. now rewrite Dr.
Qed.

Lemma name_graphic c : name_char c -> graphic c /\ c <> ":".
Proof.
  intros [H| ->]; [|split; [split; vm_compute; discriminate|discriminate]]. unfold graphic.
  destruct c as [[] [] [] [] [] [] [] []]; vm_compute in H; try discriminate H; split; try discriminate;
    split; vm_compute; discriminate.
Qed.
Lemma trim_name name : Forall name_char name -> trim name = name.
Proof.
  intros F. destruct name as [|c r]; [reflexivity|].
  destruct (exists_last (l := c :: r)) as (r' & d & E); [discriminate|].
  rewrite Forall_forall in F. eapply (trim_graphic c r d r' E); apply name_graphic, F; [now left|].
  rewrite E. apply in_or_app. right. now left.
Qed.

(** ** Attribute entries *)
Lemma split_none p s : (forall x, In x s -> p x = false) -> split_on p s = [s].
Proof.
  induction s as [|c s IH]; [reflexivity|]. intros H. cbn. rewrite (H c) by now left.
  rewrite IH; [reflexivity|]. intros x K. apply H. now right.
Qed.
Lemma split_first p s c r : (forall x, In x s -> p x = false) -> p c = true ->
  split_on p (s ++ c :: r) = s :: split_on p r.
Proof.
  intros H Hc. induction s as [|d s IH]; cbn.
  - now rewrite Hc.
  - rewrite (H d) by now left. rewrite IH; [reflexivity|]. intros x K. apply H. now right.
Qed.

Lemma minsert_get {V} k (v : V) m n : mget n (minsert k v m) = if list_eq_dec Ascii.ascii_dec n k then Some v else mget n m.
Proof.
  induction m as [|[k' v'] m IH]; cbn.
  - destruct (list_eq_dec _ n k) as [->|N]; [now rewrite beqb_refl|].
    destruct (beqb n k) eqn:B; [|reflexivity]. apply beqb_eq in B. contradiction.
  - destruct (beqb k k') eqn:B; cbn.
    + apply beqb_eq in B as <-. destruct (list_eq_dec _ n k) as [->|N]; [now rewrite beqb_refl|].
      destruct (beqb n k) eqn:B; [|reflexivity]. apply beqb_eq in B. contradiction.
    + rewrite IH. destruct (list_eq_dec _ n k) as [->|N]; [now rewrite B|]. reflexivity.
Qed.

Definition body_of (value : bytes) : bytes := match value with [] => [] | _ => " " :: value end.
Lemma entry_parts name value : simple_line (Entry name value) ->
  exists comps, split_terminator (fun c => Ascii.eqb c ":") (":" :: name ++ ":" :: body_of value) = [] :: name :: comps
    /\ (if beqb name (trim (last (name :: comps) [])) then [] else trim (last (name :: comps) [])) = value.
Proof.
  intros (F & _ & Ne & _ & _ & Nc & Hh & Hl).
  assert (split_on (fun c => Ascii.eqb c ":") (":" :: name ++ ":" :: body_of value) = [[]; name; body_of value]) as E.
  { cbn. rewrite split_first; [|intros x K; apply Ascii.eqb_neq; intros ->|reflexivity].
    - rewrite split_none; [reflexivity|]. intros x K. apply Ascii.eqb_neq. intros ->.
      unfold body_of in K. destruct value; [contradiction|]. destruct K as [K|K]; [discriminate|contradiction].
    - rewrite Forall_forall in F. apply F, name_graphic in K as [_ K]. congruence. }
  unfold split_terminator. rewrite E. destruct value as [|v vs]; cbn [body_of rev app].
  - exists []. split; [reflexivity|]. cbn [last]. rewrite trim_name by assumption. now rewrite beqb_refl.
  - exists [" " :: v :: vs]. split; [reflexivity|]. cbn [last].
    destruct Hh as [H|(c & r & Ec & Gc)]; [discriminate|]. destruct Hl as [H|(d & r' & Ed & Gd)]; [discriminate|].
    injection Ec as -> ->. destruct (trim_graphic c r d r' Ed Gc Gd) as [_ T].
    change (trim (" " :: c :: r) = c :: r) in T. rewrite T.
    destruct (beqb name (c :: r)) eqn:B; [|reflexivity]. apply beqb_eq in B. contradiction.
Qed.

(** ** The state of the parser in such a document *)
Definition literal_of (cur : option (bytes * list location)) : list inline :=
  match cur with Some (s, l) => [ILit LText false s l] | None => [] end.
Definition para_of (s : bytes) (l : list location) : block :=
  Blk (HLeaf NParagraph FmParagraph None [ILit LText false s l]) None [] (reconcile l l).
Definition paras_of (cur : option (bytes * list location)) : list block :=
  match cur with Some (s, l) => [para_of s l] | None => [] end.
Definition append_token (cur : option (bytes * list location)) (t : token) : option (bytes * list location) :=
  Some match cur with
       | Some (s, l) => (s ++ token_text t, reconcile l (token_locations t))
       | None => (token_text t, token_locations t)
       end.
Definition opt_token (cur : option (bytes * list location)) (t : option token) :=
  match t with Some t => append_token cur t | None => cur end.

Section State.
  Variables (w : world) (fuel : nat) (origin : bytes) (resolve : bool).
  Definition st (lst : token_type) attrs cur force dang bl : pstate :=
    mkP origin lst None attrs [] (literal_of cur) [] None None [] None 0%Z
        false false false force false false dang resolve (mkAsg None None [] [] bl [mkLoc 1 1 []]).

  Lemma parse_text_st t lst attrs cur force dang bl :
    parse_text t (st lst attrs cur force dang bl)
    = Ok (st lst attrs (append_token (opt_token cur dang) t) force None bl).
  Proof. destruct cur as [[s l]|], dang as [d|]; reflexivity. Qed.

  Lemma text_step t lst attrs cur force dang bl : ttype t = TText ->
    token_into w fuel t (st lst attrs cur force dang bl)
    = Ok (st lst attrs (append_token (opt_token cur dang) t) force None bl).
  Proof.
    intros E. rewrite <- parse_text_st. destruct fuel; cbn [token_into]; cbn [p_header st bind]; cbn; unfold dispatch;
      now rewrite E.
  Qed.

  Definition filled (attrs : list (bytes * bytes)) (name : bytes) (t : token) : token :=
    match mget name attrs with
    | Some v => mkTok (ttype t) (lexeme t) (Some v) (tline t) (startcol t) (startcol t + List.length v - 1) (tfiles t)
    | None => t
    end.

  Lemma ref_step files n col name lst attrs cur force dang bl : Forall name_char name ->
    token_into w fuel (ref_tok files n col name) (st lst attrs cur force dang bl)
    = Ok (st lst attrs (append_token (opt_token cur dang) (filled attrs name (ref_tok files n col name))) force None bl).
  Proof.
    intros F. rewrite <- parse_text_st. set (t := ref_tok files n col name).
    assert (inner (token_text t) 1 1 = (Ok name : result bytes)) as I.
    { unfold t, ref_tok, tok, token_text, inner, slice. cbn [validate ttype literal lexeme].
      cbn [List.length]. rewrite app_length. cbn [List.length].
      replace (S (List.length name + 1) <? 1) with false by (symmetry; apply Nat.ltb_ge; lia).
      replace (S (List.length name + 1) - 1) with (S (List.length name)) by lia.
      replace ((1 <=? S (List.length name)) && (S (List.length name) <=? S (List.length name + 1))) with true
        by (symmetry; apply andb_true_intro; split; apply Nat.leb_le; lia).
      replace (is_boundary ("{" :: name ++ ["}"]) 1) with true.
      2:{ unfold is_boundary. cbn [nth_error]. destruct F as [|c r Hc _]; [reflexivity|]. cbn.
          apply name_graphic in Hc as [Hc _]. apply graphic_facts in Hc as [-> _]. reflexivity. }
      replace (is_boundary ("{" :: name ++ ["}"]) (S (List.length name))) with true.
      2:{ unfold is_boundary. cbn [nth_error]. rewrite nth_error_app2, Nat.sub_diag by lia. reflexivity. }
      cbn [andb skipn]. rewrite Nat.sub_succ, Nat.sub_0_r, firstn_app, Nat.sub_diag, firstn_all. cbn. now rewrite app_nil_r. }
    assert (parse_attribute_reference t (st lst attrs cur force dang bl) = parse_text (filled attrs name t) (st lst attrs cur force dang bl)) as R.
    { unfold parse_attribute_reference. rewrite I. cbn [bind]. unfold filled. reflexivity. }
    rewrite <- R. destruct fuel; reflexivity.
  Qed.

  Lemma newline_step t lst attrs cur force dang bl : ttype t = TNewLineChar ->
    tt_eqb lst TNewLineChar || tt_eqb lst TEof = false -> clears_newline_after lst = false ->
    token_into w fuel t (st lst attrs cur force dang bl) = Ok (st lst attrs cur force (Some t) bl).
  Proof.
    intros E L C. destruct fuel; cbn [token_into]; cbn [p_header st bind]; cbn; unfold dispatch; rewrite E;
      unfold parse_new_line_char; cbn [set_in_line p_title st p_last p_in_cont orb]; cbn; rewrite L, C; reflexivity.
  Qed.

  Lemma blank_step t lst attrs cur force dang bl : ttype t = TNewLineChar ->
    tt_eqb lst TNewLineChar || tt_eqb lst TEof = true ->
    token_into w fuel t (st lst attrs cur force dang bl) = Ok (st lst attrs None true None (bl ++ paras_of cur)).
  Proof.
    intros E L. destruct fuel; cbn [token_into]; cbn [p_header st bind]; cbn; unfold dispatch; rewrite E;
      unfold parse_new_line_char; cbn [set_in_line p_title st p_last p_in_cont orb]; cbn; rewrite L;
      destruct cur as [[s l]|]; cbn; rewrite ?app_nil_r; reflexivity.
  Qed.

  Lemma entry_step files n name value lst attrs cur force dang bl : simple_line (Entry name value) ->
    token_into w fuel (tok TAttribute false files n 1 (spell (Entry name value))) (st lst attrs cur force dang bl)
    = Ok (st lst (minsert name value attrs) cur force dang bl).
  Proof.
    intros H. destruct (entry_parts name value H) as (comps & E & V). destruct H as (_ & Nl & _).
    replace (token_into _ _ _ _) with (parse_attribute w (tok TAttribute false files n 1 (spell (Entry name value))) (st lst attrs cur force dang bl))
      by (destruct fuel; reflexivity).
    unfold parse_attribute.
    replace (token_text (tok TAttribute false files n 1 (spell (Entry name value)))) with (":" :: name ++ ":" :: body_of value) by reflexivity.
    rewrite E, V. destruct (beqb name (bs "leveloffset")) eqn:B; [apply beqb_eq in B; contradiction|reflexivity].
  Qed.

  Lemma end_step n files lst attrs cur force dang bl :
    token_into w fuel (final_token n files) (st lst attrs cur force dang bl) = Ok (st lst attrs cur force dang bl).
  Proof. destruct fuel; reflexivity. Qed.

  Lemma set_last_st lst lst' attrs cur force dang bl :
    set_last lst' (st lst attrs cur force dang bl) = st lst' attrs cur force dang bl.
  Proof. reflexivity. Qed.

  Lemma loop_app a b p p' : parse_loop w fuel a p = Ok p' -> parse_loop w fuel (a ++ b) p = parse_loop w fuel b p'.
  Proof.
    revert p. induction a as [|t a IH]; intros p H; cbn in *.
    - now injection H as ->.
    - destruct (token_into w fuel t p); cbn in *; try discriminate. now apply IH.
  Qed.

  (** *** Stretches of text: [us] are the tokens appended to the literal *)
  Definition wordy (t : token_type) : Prop := t = TText \/ t = TAttributeReference.
  Definition after_words cur (dang : option token) us :=
    match us with [] => cur | _ => fold_left append_token us (opt_token cur dang) end.
  Definition dang_after (dang : option token) (us : list token) := match us with [] => dang | _ => None end.

  Definition words_ok attrs (ts us : list token) : Prop := forall lst cur force dang bl,
    exists lst', parse_loop w fuel ts (st lst attrs cur force dang bl)
      = Ok (st lst' attrs (after_words cur dang us) force (dang_after dang us) bl)
      /\ (us = [] /\ lst' = lst \/ us <> [] /\ wordy lst').

  Lemma words_ok_nil attrs : words_ok attrs [] [].
  Proof. intros lst cur force dang bl. exists lst. split; [reflexivity|]. now left. Qed.
  Lemma words_ok_app attrs ts us ts' us' :
    words_ok attrs ts us -> words_ok attrs ts' us' -> words_ok attrs (ts ++ ts') (us ++ us').
  Proof.
    intros H H' lst cur force dang bl. destruct (H lst cur force dang bl) as (l1 & E1 & L1).
    rewrite (loop_app _ _ _ _ E1).
    destruct (H' l1 (after_words cur dang us) force (dang_after dang us) bl) as (l2 & E2 & L2).
    exists l2. split.
    - rewrite E2. destruct us as [|u us]; [reflexivity|]. cbn [dang_after].
      destruct us' as [|u' us']; cbn [dang_after].
      + now rewrite app_nil_r.
      + unfold after_words at 1 3. cbn [opt_token app]. rewrite app_comm_cons, fold_left_app. reflexivity.
    - destruct L1 as [[-> ->]|[N1 L1]], L2 as [[-> ->]|[N2 L2]]; cbn; auto.
      + right. rewrite app_nil_r. auto.
      + right. split; [|assumption]. destruct us; [congruence|discriminate].
  Qed.
  Lemma words_ok_text attrs t : ttype t = TText -> words_ok attrs [t] [t].
  Proof.
    intros E lst cur force dang bl. exists TText. split.
    - cbn [parse_loop]. rewrite text_step by assumption. cbn [bind]. now rewrite set_last_st, E.
    - right. split; [discriminate|]. now left.
  Qed.
  Lemma words_ok_texts attrs files n col ts s : texts files n col ts s -> words_ok attrs ts ts.
  Proof.
    induction 1 as [|col s ts s' Hs Hn T IH]; [apply words_ok_nil|].
    apply (words_ok_app attrs [_] [_] ts ts); [|assumption]. now apply words_ok_text.
  Qed.
  Lemma words_ok_ref attrs files n col name : Forall name_char name ->
    words_ok attrs [ref_tok files n col name] [filled attrs name (ref_tok files n col name)].
  Proof.
    intros F lst cur force dang bl. exists TAttributeReference. split.
    - cbn [parse_loop]. rewrite ref_step by assumption. reflexivity.
    - right. split; [discriminate|]. now right.
  Qed.

  Definition text_of (ts : list token) : bytes := List.concat (map token_text ts).
  Lemma texts_text files n col ts s : texts files n col ts s -> text_of ts = s.
  Proof. induction 1 as [|col s ts s' _ _ _ IH]; [reflexivity|]. cbn. unfold text_of in IH. now rewrite IH. Qed.
  Definition agrees (attrs : list (bytes * bytes)) (e : env) : Prop := forall n, mget n attrs = e n.

  Lemma words_ok_refs attrs e files n col l ts : refs files n col l ts -> agrees attrs e ->
    Forall (fun x => Forall name_char (fst x) /\ plain (snd x)) l ->
    exists us, words_ok attrs ts us /\ text_of us = List.concat (map (fun x => value_of e (fst x) ++ snd x) l)
      /\ (l = [] <-> us = []).
  Proof.
    induction 1 as [|col name s l ts ts' T R IH]; intros A F.
    - exists []. repeat split; auto. apply words_ok_nil.
    - inversion F as [|? ? [F1 _] F2]. subst. destruct (IH A F2) as (us & W & E & _).
      exists ([filled attrs name (ref_tok files n col name)] ++ ts ++ us). split; [|split].
      + apply (words_ok_app attrs [ref_tok files n col name]); [now apply words_ok_ref|].
        apply words_ok_app; [|assumption]. eapply words_ok_texts; eassumption.
      + unfold text_of in *. cbn [app map List.concat fst snd]. rewrite map_app, concat_app, E.
        apply texts_text in T. unfold text_of in T. rewrite T, app_assoc. f_equal. f_equal.
        unfold filled, value_of. rewrite <- (A name). destruct (mget name attrs); reflexivity.
      + split; discriminate.
  Qed.

  Definition cur_text (cur : option (bytes * list location)) : option bytes := option_map fst cur.
  Lemma append_text ts : forall cur, ts <> [] ->
    cur_text (fold_left append_token ts cur) = Some (match cur_text cur with Some s => s ++ text_of ts | None => text_of ts end).
  Proof.
    induction ts as [|t ts IH]; intros cur H; [congruence|]. cbn [fold_left]. destruct ts as [|u ts].
    - cbn. rewrite app_nil_r. now destruct cur as [[s l]|].
    - rewrite IH by discriminate. destruct cur as [[s l]|]; cbn; now rewrite ?app_assoc.
  Qed.

  (** *** Lines *)
  Definition line_end (lst : token_type) : Prop := tt_eqb lst TNewLineChar || tt_eqb lst TEof = true.
  Lemma words_line attrs e files n s l ts lst cur force dang bl :
    line_tokens files n (Words s l) ts -> agrees attrs e -> simple_line (Words s l) ->
    exists us, us <> [] /\ text_of us = expand e s l
      /\ (l = [] -> texts files n 1 us s)
      /\ parse_loop w fuel ts (st lst attrs cur force dang bl)
         = Ok (st TNewLineChar attrs (fold_left append_token us (opt_token cur dang)) force
                 (Some (nl_tok files n (1 + List.length (spell (Words s l))))) bl).
  Proof.
    intros T A (Hne & _ & _ & F). inversion T as [| |? ? t1 t2 T1 T2]. subst.
    destruct (words_ok_refs attrs e _ _ _ _ _ T2 A F) as (us & W & E & El).
    assert (t1 ++ us <> []) as N.
    { intros K. apply app_eq_nil in K as [-> ->]. apply texts_text in T1. cbn in T1. subst s.
      destruct El as [_ El]. rewrite El in Hne by reflexivity. now apply Hne. }
    exists (t1 ++ us). repeat split; [assumption|..].
    - unfold text_of, expand in *. rewrite map_app, concat_app, E. apply texts_text in T1. unfold text_of in T1. now rewrite T1.
    - intros Z. apply El in Z as ->. now rewrite app_nil_r.
    - pose proof (words_ok_app _ _ _ _ _ (words_ok_texts attrs _ _ _ _ _ T1) W) as W'.
      destruct (W' lst cur force dang bl) as (l1 & E1 & [[K _]|[_ L1]]); [contradiction|].
      rewrite app_assoc, (loop_app _ _ _ _ E1). cbn [parse_loop].
      rewrite newline_step; [|reflexivity| |]; [|now destruct L1 as [->| ->]..].
      cbn [bind]. rewrite set_last_st. cbn [parse_loop]. unfold after_words. destruct (t1 ++ us); [contradiction|]. reflexivity.
  Qed.
  Lemma entry_line files n name value ts lst attrs cur force dang bl :
    line_tokens files n (Entry name value) ts -> simple_line (Entry name value) ->
    parse_loop w fuel ts (st lst attrs cur force dang bl)
    = Ok (st TNewLineChar (minsert name value attrs) cur force
            (Some (nl_tok files n (1 + List.length (spell (Entry name value))))) bl).
  Proof.
    intros T H. inversion T as [|? ? |]. subst. cbn [parse_loop]. rewrite entry_step by assumption. cbn [bind].
    rewrite set_last_st. rewrite newline_step by reflexivity. reflexivity.
  Qed.
  Lemma blank_line files n ts lst attrs cur force dang bl : line_tokens files n Blank ts -> line_end lst ->
    parse_loop w fuel ts (st lst attrs cur force dang bl)
    = Ok (st TNewLineChar attrs None true None (bl ++ paras_of cur)).
  Proof.
    intros T L. inversion T. subst. cbn [parse_loop]. rewrite blank_step by (reflexivity || assumption). reflexivity.
  Qed.
  Lemma last_line files n fin ts lst attrs cur force dang bl : texts files n 1 ts fin ->
    parse_loop w fuel (ts ++ [final_token n files]) (st lst attrs cur force dang bl)
    = Ok (st TEof attrs (after_words cur dang ts) force (dang_after dang ts) bl).
  Proof.
    intros T. destruct (words_ok_texts attrs _ _ _ _ _ T lst cur force dang bl) as (l1 & E1 & _).
    rewrite (loop_app _ _ _ _ E1). cbn [parse_loop]. rewrite end_step. reflexivity.
  Qed.

  Lemma parse_of ts lst attrs cur force dang bl :
    parse_loop w fuel ts (st TEof [] None false None []) = Ok (st lst attrs cur force dang bl) ->
    forall src, scan_stream src [] = (ts, Ok tt) ->
    parse w fuel origin resolve src = Ok (asg_consolidate (mkAsg None None [] [] (bl ++ paras_of cur) [mkLoc 1 1 []])).
  Proof.
    intros H src S. unfold parse, parse_with. rewrite S. cbn [fst snd].
    change (set_asg new_asg (new_parser origin resolve)) with (st TEof [] None false None []). rewrite H. cbn [bind].
    destruct cur as [[s l]|]; cbn; rewrite ?app_nil_r; reflexivity.
  Qed.
  Lemma paras_fixed bl : Forall (fun b => exists s l, b = para_of s l) bl ->
    map (map_inlines (xref_standardize [])) bl = bl.
  Proof. induction 1 as [|b bl (s & l & ->) _ IH]; [reflexivity|]. cbn [map]. now rewrite IH. Qed.
End State.

(** ** The text of the paragraphs (C17) *)

Lemma agrees_insert attrs e name value : agrees attrs e -> agrees (minsert name value attrs) (set_env e name value).
Proof. intros A n. rewrite minsert_get. unfold set_env. destruct (list_eq_dec _ n name); [reflexivity|apply A]. Qed.

Section Text.
  Variables (w : world) (fuel : nat) (origin : bytes) (resolve : bool).
  Notation st := (st origin resolve).
  Definition is_para (b : block) (s : bytes) : Prop := exists l, b = para_of s l.
  Definition follows_of (dang : option token) : bool := match dang with Some _ => true | None => false end.
  Definition nl_dang (dang : option token) : Prop := forall t, dang = Some t -> token_text t = [NL].
  Lemma paras_text cur : Forall2 is_para (paras_of cur) (paragraph_of (cur_text cur)).
  Proof. destruct cur as [[s l]|]; cbn; repeat constructor. now exists l. Qed.

  Lemma opt_text cur dang us : nl_dang dang -> us <> [] ->
    cur_text (fold_left append_token us (opt_token cur dang))
    = Some (match cur_text cur with
            | Some t => t ++ (if follows_of dang then [NL] else []) ++ text_of us
            | None => (if follows_of dang then [NL] else []) ++ text_of us
            end).
  Proof.
    intros D N. rewrite append_text by assumption. destruct dang as [t|]; cbn [follows_of opt_token].
    - specialize (D t eq_refl). destruct cur as [[s l]|]; cbn; rewrite D; [now rewrite <- app_assoc|reflexivity].
    - reflexivity.
  Qed.

  Lemma doc_text files n ls fin ts : doc_tokens files n ls fin ts -> Forall simple_line ls ->
    forall e attrs lst cur force dang bl, agrees attrs e -> line_end lst -> nl_dang dang ->
    exists lst' attrs' cur' force' dang' bl',
      parse_loop w fuel ts (st lst attrs cur force dang bl) = Ok (st lst' attrs' cur' force' dang' (bl ++ bl'))
      /\ Forall2 is_para (bl' ++ paras_of cur') (paragraphs e (cur_text cur) (follows_of dang) (ls ++ fin_line fin)).
  Proof.
    induction 1 as [n fin ts T|n l ls fin ts ts' T D IH]; intros F e attrs lst cur force dang bl A L Dn.
    - rewrite (last_line w fuel origin resolve _ _ _ _ _ _ _ _ _ _ T). exists TEof, attrs, (after_words cur dang ts), force, (dang_after dang ts), [].
      split; [now rewrite app_nil_r|]. cbn [app]. pose proof (texts_text _ _ _ _ _ T) as E. destruct ts as [|t ts].
      + cbn in E. subst. cbn. apply paras_text.
      + assert (fin <> []) as Nf.
        { inversion T as [|? s' ? s'' Hs]. subst. destruct s'; [congruence|]. discriminate. }
        destruct fin as [|f fin]; [congruence|]. cbn [fin_line paragraphs].
        unfold after_words. pose proof (opt_text cur dang (t :: ts) Dn) as O.
        pose proof (paras_text (fold_left append_token (t :: ts) (opt_token cur dang))) as P.
        rewrite O, E in P by discriminate. unfold expand. cbn [map List.concat]. rewrite app_nil_r. exact P.
    - inversion F as [|? ? F1 F2]. subst. destruct l as [|name value|s l].
      + erewrite loop_app by (apply (blank_line w fuel origin resolve _ _ _ _ attrs cur force dang bl T L)).
        destruct (IH F2 e attrs TNewLineChar None true None (bl ++ paras_of cur) A)
          as (l1 & a1 & c1 & f1 & d1 & b1 & E & P); [reflexivity|intros t; discriminate|].
        exists l1, a1, c1, f1, d1, (paras_of cur ++ b1). split; [now rewrite E, <- app_assoc|].
        cbn [app paragraphs]. rewrite <- app_assoc. apply Forall2_app; [apply paras_text|exact P].
      + erewrite loop_app by (apply (entry_line w fuel origin resolve _ _ _ _ _ lst attrs cur force dang bl T F1)).
        destruct (IH F2 (set_env e name value) (minsert name value attrs) TNewLineChar cur force
                     (Some (nl_tok files n (1 + List.length (spell (Entry name value))))) bl)
          as (l1 & a1 & c1 & f1 & d1 & b1 & E & P); [now apply agrees_insert|reflexivity|now intros t [= <-]|].
        exists l1, a1, c1, f1, d1, b1. split; [exact E|]. exact P.
      + destruct (words_line w fuel origin resolve attrs e _ _ _ _ _ lst cur force dang bl T A F1) as (us & N & Eu & _ & El).
        erewrite loop_app by exact El.
        destruct (IH F2 e attrs TNewLineChar (fold_left append_token us (opt_token cur dang)) force
                     (Some (nl_tok files n (1 + List.length (spell (Words s l))))) bl A)
          as (l1 & a1 & c1 & f1 & d1 & b1 & E & P); [reflexivity|now intros t [= <-]|].
        exists l1, a1, c1, f1, d1, b1. split; [exact E|]. rewrite opt_text in P by assumption. rewrite Eu in P.
        cbn [app paragraphs]. exact P.
  Qed.
End Text.

Lemma paragraphs_parsed w fuel origin resolve ls fin :
  Forall simple_line ls -> plain fin -> plain_start fin ->
  exists a, parse w fuel origin resolve (source ls ++ fin) = Ok a
    /\ Forall2 paragraph_text (a_blocks a) (paragraphs no_env None false (ls ++ fin_line fin))
    /\ a_header a = None.
Proof.
  intros F P S. destruct (doc_stream [] ls fin F P S) as (ts & St & D).
  destruct (doc_text w fuel origin resolve _ _ _ _ _ D F no_env [] TEof None false None [])
    as (l1 & a1 & c1 & f1 & d1 & b1 & E & K); [now intros n|reflexivity|intros t; discriminate|].
  pose proof (parse_of w fuel origin resolve ts _ _ _ _ _ _ E _ St) as H.
  eexists. split; [exact H|]. split; [|reflexivity]. cbn [asg_consolidate a_blocks a_ids app].
  change (Forall2 is_para (b1 ++ paras_of c1) (paragraphs no_env None false (ls ++ fin_line fin))) in K.
  rewrite paras_fixed.
  - clear -K. induction K as [|b s bl sl (l & ->) _ IH]; constructor; [now exists l, (reconcile l l)|exact IH].
  - clear -K. induction K as [|b s bl sl (l & ->) _ IH]; constructor; [now exists s, l|exact IH].
Qed.

(** ** Plain documents, with their positions (C11) *)
Lemma reconcile_ordered a b c d : not_after a b -> not_after b c -> not_after c d -> reconcile [a; b] [c; d] = [a; d].
Proof.
  intros H1 H2 H3. unfold reconcile. cbn.
  apply loc_leb_iff in H1, H2, H3. rewrite H3. cbn [loc_insert]. rewrite H2. cbn [loc_insert]. now rewrite H1.
Qed.
Lemma reconcile_self a b : not_after a b -> loc_file a = loc_file b -> reconcile [a; b] [a; b] = [a; b].
Proof.
  intros H F. unfold reconcile. cbn. pose proof (proj2 (loc_leb_iff _ _) H) as L. rewrite L. cbn [loc_insert].
  destruct (loc_leb b a) eqn:B; cbn [loc_insert].
  - apply loc_leb_iff in B. pose proof (same_place_equal a b (not_after_antisym _ _ H B) F) as ->. cbn [loc_insert]. rewrite L. reflexivity.
  - pose proof (proj2 (loc_leb_iff b b) (not_after_refl b)) as ->. cbn [loc_insert]. rewrite (proj2 (loc_leb_iff a a) (not_after_refl a)). reflexivity.
Qed.

Lemma append_ordered files n col ts s : texts files n col ts s -> forall t a b, 1 <= col ->
  not_after a b -> not_after b (mkLoc n col files) -> ts <> [] ->
  fold_left append_token ts (Some (t, [a; b])) = Some (t ++ s, [a; mkLoc n (col + List.length s - 1) files]).
Proof.
  induction 1 as [|col s ts s' Hs Hn T IH]; intros t a b C H1 H2 N; [congruence|]. cbn [fold_left].
  assert (1 <= List.length s) as Ls by (destruct s; [congruence|cbn; lia]).
  replace (append_token (Some (t, [a; b])) (tok TText true files n col s))
    with (Some (t ++ s, [a; mkLoc n (col + List.length s - 1) files])).
  2:{ unfold append_token. change (token_text (tok TText true files n col s)) with s.
      change (token_locations (tok TText true files n col s)) with [mkLoc n col files; mkLoc n (col + List.length s - 1) files].
      rewrite reconcile_ordered; [reflexivity|assumption|assumption|].
      right. split; [reflexivity|]. right. cbn. lia. }
  destruct ts as [|u ts].
  - inversion T. subst. cbn. now rewrite app_nil_r.
  - rewrite IH; [| lia | | |discriminate].
    + rewrite app_length, app_assoc. do 4 f_equal. f_equal. lia.
    + eapply not_after_trans; [exact H1|]. eapply not_after_trans; [exact H2|]. right. split; [reflexivity|]. right. cbn. lia.
    + right. split; [reflexivity|]. right. cbn. lia.
Qed.
Lemma append_first files n col ts s : texts files n col ts s -> 1 <= col -> ts <> [] ->
  fold_left append_token ts None = Some (s, [mkLoc n col files; mkLoc n (col + List.length s - 1) files]).
Proof.
  intros T C N. inversion T as [|? s1 ts1 s2 Hs Hn T1]; subst; [congruence|]. cbn [fold_left].
  assert (1 <= List.length s1) as Ls by (destruct s1; [congruence|cbn; lia]).
  change (append_token None (tok TText true files n col s1))
    with (Some (s1, [mkLoc n col files; mkLoc n (col + List.length s1 - 1) files])).
  destruct ts1 as [|u ts1].
  - inversion T1. subst. cbn. now rewrite app_nil_r.
  - erewrite append_ordered; [|exact T1|lia| | |discriminate].
    + rewrite app_length. do 4 f_equal. f_equal. lia.
    + right. split; [reflexivity|]. right. cbn. lia.
    + right. split; [reflexivity|]. right. cbn. lia.
Qed.

Definition line_of (l : bytes) : line := match l with [] => Blank | _ => Words l [] end.
Lemma spell_line l : spell (line_of l) = l.
Proof. destruct l; [reflexivity|]. cbn. now rewrite app_nil_r. Qed.

(** the lines of the open paragraph, before line [n] *)
Definition cur_of (n : nat) (done : list bytes) : option (bytes * list location) :=
  match done with
  | [] => None
  | _ => Some (joined done, [mkLoc (n - List.length done) 1 []; mkLoc (n - 1) (List.length (last done [])) []])
  end.
Definition dang_of (n : nat) (done : list bytes) : option token :=
  match done with [] => None | _ => Some (nl_tok [] (n - 1) (1 + List.length (last done []))) end.

Lemma joined_snoc done l : done <> [] -> joined (done ++ [l]) = joined done ++ NL :: l.
Proof.
  destruct done as [|x r]; [congruence|]. intros _. cbn. rewrite map_app, concat_app. cbn. now rewrite app_nil_r, app_assoc.
Qed.
Lemma last_snoc {A} (l : list A) x d : last (l ++ [x]) d = x.
Proof. induction l as [|y l IH]; [reflexivity|]. cbn. destruct l; [reflexivity|exact IH]. Qed.

Lemma cur_of_ne n done : done <> [] -> cur_of n done
  = Some (joined done, [mkLoc (n - List.length done) 1 []; mkLoc (n - 1) (List.length (last done [])) []]).
Proof. now destruct done. Qed.
Lemma dang_of_ne n done : done <> [] -> dang_of n done = Some (nl_tok [] (n - 1) (1 + List.length (last done []))).
Proof. now destruct done. Qed.

Lemma line_grows n done ts s : texts [] n 1 ts s -> s <> [] -> List.length done < n -> Forall (fun l => l <> []) done ->
  fold_left append_token ts (opt_token (cur_of n done) (dang_of n done)) = cur_of (S n) (done ++ [s]).
Proof.
  intros T Ns L F.
  assert (ts <> []) as Nt. { intros ->. inversion T. congruence. }
  rewrite (cur_of_ne (S n)) by now destruct done.
  rewrite last_snoc, app_length. cbn [List.length].
  destruct done as [|x r].
  - cbn [cur_of dang_of opt_token]. rewrite (append_first _ _ _ _ _ T) by (lia || assumption). cbn [app joined map List.concat List.length].
    rewrite app_nil_r. repeat f_equal; lia.
  - remember (x :: r) as done eqn:Ed.
    assert (done <> []) as Nd by (subst; discriminate).
    assert (1 <= List.length (last done [])) as Ll.
    { assert (last done [] <> []) as K.
      { rewrite Forall_forall in F. apply F. now apply last_in. }
      destruct (last done []); [congruence|cbn; lia]. }
    assert (1 <= List.length done) as Lg by (subst; cbn; lia).
    replace (opt_token (cur_of n done) (dang_of n done))
      with (Some (joined done ++ [NL], [mkLoc (n - List.length done) 1 []; mkLoc (n - 1) (1 + List.length (last done [])) []])).
    2:{ rewrite cur_of_ne, dang_of_ne by assumption. cbn [opt_token]. unfold append_token.
        change (token_text (nl_tok [] (n - 1) (1 + List.length (last done [])))) with [NL].
        change (token_locations (nl_tok [] (n - 1) (1 + List.length (last done []))))
          with [mkLoc (n - 1) (1 + List.length (last done [])) []; mkLoc (n - 1) (1 + List.length (last done []) + 1 - 1) []].
        replace (1 + List.length (last done []) + 1 - 1) with (1 + List.length (last done [])) by lia.
        rewrite reconcile_ordered; [reflexivity|..]; right; split; try reflexivity; cbn [loc_line loc_col]; lia. }
    rewrite (append_ordered _ _ _ _ _ T); [|lia| | |assumption].
    + rewrite joined_snoc, <- app_assoc by assumption. cbn [app].
      replace (S n - (List.length done + 1)) with (n - List.length done) by lia.
      replace (S n - 1) with n by lia. replace (1 + List.length s - 1) with (List.length s) by lia. reflexivity.
    + right. split; [reflexivity|]. cbn [loc_line loc_col]. lia.
    + right. split; [reflexivity|]. cbn [loc_line loc_col]. lia.
Qed.

Lemma paras_cur n done : List.length done < n -> Forall (fun l => l <> []) done ->
  paras_of (cur_of n done)
  = map (fun x => plain_paragraph (fst x) (snd x)) (match done with [] => [] | _ => [(n - List.length done, done)] end).
Proof.
  intros L F. destruct done as [|x r]; [reflexivity|]. remember (x :: r) as done eqn:Ed.
  assert (done <> []) as Nd by (subst; discriminate).
  assert (last done [] <> []) as K.
  { rewrite Forall_forall in F. apply F. now apply last_in. }
  rewrite cur_of_ne by assumption. rewrite Ed. rewrite <- Ed. cbn [paras_of map fst snd]. unfold para_of, plain_paragraph.
  assert (1 <= List.length (last done [])) by (destruct (last done []); [congruence|cbn; lia]).
  assert (1 <= List.length done) by (subst; cbn; lia).
  rewrite reconcile_self; [|right; split; [reflexivity|]; cbn [loc_line loc_col]; lia|reflexivity].
  replace (n - List.length done + List.length done - 1) with (n - 1) by lia. reflexivity.
Qed.

Section Lines.
  Variables (w : world) (fuel : nat) (origin : bytes) (resolve : bool).
  Notation st := (st origin resolve).
  Lemma doc_lines ls : forall n fin ts lst done force bl, doc_tokens [] n (map line_of ls) fin ts ->
    Forall simple_line (map line_of ls) -> line_end lst -> List.length done < n -> Forall (fun l => l <> []) done ->
    exists lst' cur' force' dang' bl',
      parse_loop w fuel ts (st lst [] (cur_of n done) force (dang_of n done) bl) = Ok (st lst' [] cur' force' dang' (bl ++ bl'))
      /\ bl' ++ paras_of cur' = map (fun x => plain_paragraph (fst x) (snd x)) (runs_of n done (ls ++ [fin])).
  Proof.
    induction ls as [|l ls IH]; intros n fin ts lst done force bl D F L Ld Fd.
    - inversion D as [? ? ts0 T|]. subst. rewrite (last_line w fuel origin resolve _ _ _ _ _ _ _ _ _ _ T).
      exists TEof, (after_words (cur_of n done) (dang_of n done) ts0), force, (dang_after (dang_of n done) ts0), [].
      split; [now rewrite app_nil_r|]. cbn [app runs_of]. destruct fin as [|f fin].
      + apply texts_len in T. destruct ts0; [|cbn in T; lia]. cbn [after_words]. rewrite paras_cur by assumption.
        now rewrite app_nil_r.
      + destruct ts0 as [|t ts0]; [inversion T|]. unfold after_words.
        rewrite (line_grows _ _ _ _ T) by (discriminate || assumption).
        rewrite paras_cur; [|rewrite app_length; cbn; lia|apply Forall_app; split; [assumption|repeat constructor; discriminate]].
        reflexivity.
    - inversion D as [|? ? ? ? ts1 ts2 T D']. subst. cbn [map] in F. inversion F as [|? ? F1 F2]. subst.
      destruct l as [|c l].
      + cbn [line_of] in T.
        erewrite loop_app by (apply (blank_line w fuel origin resolve _ _ _ _ [] (cur_of n done) force (dang_of n done) bl T L)).
        destruct (IH (S n) fin ts2 TNewLineChar [] true (bl ++ paras_of (cur_of n done)) D' F2)
          as (l1 & c1 & f1 & d1 & b1 & E & K); [reflexivity|cbn; lia|constructor|].
        exists l1, c1, f1, d1, (paras_of (cur_of n done) ++ b1). split; [now rewrite app_assoc|].
        cbn [app runs_of]. rewrite map_app, <- app_assoc, K, paras_cur by assumption. reflexivity.
      + cbn [line_of] in T, F1.
        destruct (words_line w fuel origin resolve [] no_env _ _ _ _ _ lst (cur_of n done) force (dang_of n done) bl T) as (us & N & _ & Tu & El);
          [now intros m|assumption|]. specialize (Tu eq_refl).
        erewrite loop_app by exact El. rewrite (line_grows _ _ _ _ Tu) by (discriminate || assumption).
        destruct (IH (S n) fin ts2 TNewLineChar (done ++ [c :: l]) force bl D' F2)
          as (l1 & c1 & f1 & d1 & b1 & E & K); [reflexivity|rewrite app_length; cbn; lia| |].
        { apply Forall_app. split; [assumption|]. repeat constructor. discriminate. }
        exists l1, c1, f1, d1, b1. split; [|exact K]. rewrite <- E. f_equal.
        rewrite dang_of_ne by now destruct done.
        rewrite last_snoc. cbn [spell map List.concat]. rewrite app_nil_r. repeat f_equal. lia.
  Qed.
End Lines.

Lemma simple_lines ls : Forall (fun l => plain l /\ plain_start l) ls -> Forall simple_line (map line_of ls).
Proof.
  induction 1 as [|l ls [P S] _ IH]; constructor; [|exact IH]. destruct l as [|c l]; [exact I|].
  cbn [line_of simple_line spell]. repeat split; try apply P; try assumption; try constructor.
  cbn [map List.concat]. rewrite app_nil_r. discriminate.
Qed.
Lemma source_lines ls : source (map line_of ls) = List.concat (map (fun l => l ++ [NL]) ls).
Proof.
  unfold source. rewrite map_map. f_equal. apply map_ext. intros l. now rewrite spell_line.
Qed.
Lemma joined_lines ls fin : joined (ls ++ [fin]) = List.concat (map (fun l => l ++ [NL]) ls) ++ fin.
Proof.
  assert (forall ls, List.concat (map (fun y => NL :: y) (ls ++ [fin])) = NL :: List.concat (map (fun l => l ++ [NL]) ls) ++ fin) as K.
  { clear ls. induction ls as [|l ls IH]; cbn; [now rewrite app_nil_r|]. rewrite IH. now rewrite <- !app_assoc. }
  destruct ls as [|l ls]; cbn; [now rewrite app_nil_r|]. rewrite K. now rewrite <- !app_assoc.
Qed.

Lemma plain_parsed w fuel origin resolve lines : lines <> [] ->
  Forall (fun l => plain l /\ plain_start l) lines ->
  exists a, parse w fuel origin resolve (joined lines) = Ok a
    /\ a_blocks a = map (fun x => plain_paragraph (fst x) (snd x)) (runs_of 1 [] lines)
    /\ a_header a = None /\ a_attrs a = None /\ a_ids a = [].
Proof.
  intros N F. destruct (exists_last N) as (ls & fin & ->). apply Forall_app in F as [F1 F2]. inversion F2 as [|? ? [P S] _]. subst.
  pose proof (simple_lines _ F1) as Fs. destruct (doc_stream [] (map line_of ls) fin Fs P S) as (ts & St & D).
  destruct (doc_lines w fuel origin resolve ls 1 fin ts TEof [] false [] D Fs) as (l1 & c1 & f1 & d1 & b1 & E & K);
    [reflexivity|cbn; lia|constructor|].
  pose proof (parse_of w fuel origin resolve ts _ _ _ _ _ _ E _ St) as H. rewrite source_lines, <- joined_lines in H.
  eexists. split; [exact H|]. repeat split. cbn [asg_consolidate a_blocks a_ids app]. cbn [app] in K. rewrite K.
  generalize (runs_of 1 [] (ls ++ [fin])). intros l. clear. induction l as [|[n r] l IH]; [reflexivity|]. cbn [map]. now rewrite IH.
Qed.

Lemma runs_paragraph p : forall n cur ls, Forall (fun l => l <> []) p ->
  runs_of n cur (p ++ ls) = runs_of (n + List.length p) (cur ++ p) ls.
Proof.
  induction p as [|l p IH]; intros n cur ls F; cbn [app List.length].
  - now rewrite Nat.add_0_r, app_nil_r.
  - inversion F as [|? ? F1 F2]. subst. destruct l as [|c l]; [congruence|]. cbn [runs_of].
    rewrite IH by assumption. rewrite <- app_assoc. cbn [app]. f_equal. lia.
Qed.
Lemma runs_numbered ps : Forall (fun p => p <> [] /\ Forall (fun l => l <> []) p) ps -> forall n,
  runs_of n [] (separated ps) = numbered n ps.
Proof.
  induction 1 as [|p ps [N F] _ IH]; intros n; [reflexivity|]. destruct ps as [|q ps].
  - cbn [separated numbered]. rewrite <- (app_nil_r p) at 1. rewrite runs_paragraph by assumption. cbn [app runs_of].
    destruct p; [congruence|]. do 2 f_equal. lia.
  - change (separated (p :: q :: ps)) with (p ++ [] :: separated (q :: ps)). rewrite runs_paragraph by assumption. cbn [app].
    cbn [runs_of]. rewrite IH. destruct p as [|x p]; [congruence|]. cbn [app numbered].
    replace (n + List.length (x :: p) - List.length (x :: p)) with n by lia.
    now replace (S (n + List.length (x :: p))) with (n + List.length (x :: p) + 1) by lia.
Qed.
Lemma separated_plain ps : Forall (fun p => p <> [] /\ Forall (fun l => l <> [] /\ plain l /\ plain_start l) p) ps ->
  Forall (fun l => plain l /\ plain_start l) (separated ps).
Proof.
  assert (plain [] /\ plain_start []) as E.
  { split; [split; [constructor|]|].
    - repeat (constructor; [intros (a & b & K); destruct a; discriminate|]). constructor.
    - repeat (constructor; [intros (a & K); discriminate|]). constructor. }
  induction 1 as [|p ps [N F] _ IH]; [constructor|].
  assert (Forall (fun l => plain l /\ plain_start l) p) as Fp by (eapply Forall_impl; [|exact F]; now intros l [_ K]).
  destruct ps as [|q ps]; [exact Fp|]. apply Forall_app. split; [exact Fp|]. constructor; [exact E|exact IH].
Qed.
Lemma plain_paragraphs_parsed w fuel origin resolve ps : ps <> [] ->
  Forall (fun p => p <> [] /\ Forall (fun l => l <> [] /\ plain l /\ plain_start l) p) ps ->
  exists a, parse w fuel origin resolve (joined (separated ps)) = Ok a
    /\ a_blocks a = map (fun x => plain_paragraph (fst x) (snd x)) (numbered 1 ps).
Proof.
  intros N F. destruct (plain_parsed w fuel origin resolve (separated ps)) as (a & H & E & _).
  - destruct ps as [|p [|q ps]]; [congruence| |]; inversion F as [|? ? [K _] _]; subst; cbn; destruct p; congruence || discriminate.
  - now apply separated_plain.
  - exists a. split; [exact H|]. rewrite E, runs_numbered; [reflexivity|]. eapply Forall_impl; [|exact F].
    intros p [K1 K2]. split; [exact K1|]. eapply Forall_impl; [|exact K2]. now intros l [K _].
Qed.
