(** * Footnotes: proofs for C30 *)
From Verif Require Import Base Location Token Meta Inline Block Asg SpecXref SpecNotes ScanLemmas GraphLemmas TreeInd LevelProofs.
Local Open Scope nat_scope.

Local Arguments dec : simpl never.
Lemma deconstruct_spec kids loc n doc def repl contents : deconstruct_footnote kids loc n doc = (def, repl, contents) ->
  reference doc n repl /\ definition doc n kids (new_footnote_def def contents).
Proof.
  intros H. unfold deconstruct_footnote in H. injection H as <- <- <-. split.
  - unfold reference, new_footnote_ref, def_id, ref_id. do 9 eexists. split; [reflexivity|]. split; [do 4 eexists; reflexivity|]. eexists. split; [reflexivity|]. reflexivity.
  - unfold definition, new_footnote_def, def_id, ref_id. do 6 eexists. split; [reflexivity|]. split; [eexists; split; reflexivity|]. do 4 eexists. reflexivity.
Qed.
Lemma inline_numbered doc l : forall n l' ds, extract_inline_footnotes l n doc = (l', ds) -> numbered doc n l l' ds.
Proof.
  induction l as [|i l IH]; intros n l' ds H; cbn [extract_inline_footnotes] in H; [injection H as <- <-; constructor|].
  assert (is_note i = false -> (let (r', ds0) := extract_inline_footnotes l n doc in (i :: r', ds0)) = (l', ds) -> numbered doc n (i :: l) l' ds) as O.
  { intros N E. destruct (extract_inline_footnotes l n doc) as [r' ds0] eqn:X. injection E as <- <-. constructor; auto. }
  destruct i as [[] f kids m loc o| | |]; try (apply O; [reflexivity|exact H]). clear O.
  destruct (deconstruct_footnote kids loc (S n) doc) as [[def repl] contents] eqn:D. apply deconstruct_spec in D as [D1 D2].
  destruct (extract_inline_footnotes l (S n) doc) as [r' ds0] eqn:X. injection H as <- <-. econstructor; eauto.
Qed.
Lemma notes_app a b : notes (a ++ b) = notes a + notes b.
Proof. unfold notes. now rewrite filter_app, app_length. Qed.
Lemma numbered_length doc n l l' ds : numbered doc n l l' ds -> List.length ds = notes l.
Proof. unfold notes. induction 1 as [|n i l l' ds N _ IH|]; cbn; auto. now rewrite N. Qed.
Lemma numbered_app doc b b' es a a' ds n : numbered doc n a a' ds -> numbered doc (n + List.length ds) b b' es -> numbered doc n (a ++ b) (a' ++ b') (ds ++ es).
Proof.
  induction 1 as [n|n i l l' ds N _ IH|n f kids m loc o l l' ds i d R D _ IH]; intros H; cbn [app List.length] in *.
  - now rewrite Nat.add_0_r in H.
  - constructor; auto.
  - econstructor; eauto. apply IH. now rewrite Nat.add_succ_comm.
Qed.
Lemma numbered_shift doc n n' l l' ds : numbered doc n l l' ds -> notes l = 0 -> numbered doc n' l l' ds.
Proof.
  induction 1 as [n|n i l l' ds N _ IH|]; intros Z; [constructor| |discriminate]. constructor; [exact N|]. apply IH. unfold notes in *. cbn in Z. now rewrite N in Z.
Qed.

(** ** Blocks *)
Definition orders (l : list block) : list block := List.concat (map in_order l).
Definition inl (b : block) : list inline := texts_of (in_order b).
Lemma texts_app a b : texts_of (a ++ b) = texts_of a ++ texts_of b.
Proof. unfold texts_of. now rewrite map_app, concat_app. Qed.
Lemma inl_eq h m k loc : inl (Blk h m k loc) = note_texts (Blk h m k loc) ++ texts_of (orders k).
Proof. reflexivity. Qed.
Lemma orders_cons x l : texts_of (orders (x :: l)) = inl x ++ texts_of (orders l).
Proof. unfold orders, inl. cbn. apply texts_app. Qed.
Lemma texts_one b : texts_of [b] = note_texts b.
Proof. apply app_nil_r. Qed.
Definition leaf (b : block) : bool := match b_head b with HLeaf _ _ _ _ => true | _ => false end.
Definition early (n : nat) (l : list block) : Prop :=
  forall pre d post, l = pre ++ d :: post -> leaf d = false -> notes (inl d) <> 0 -> n + notes (texts_of pre) = 0.
Lemma early_zero n l : early n l -> early 0 l.
Proof. intros H pre d post E L N. specialize (H pre d post E L N). lia. Qed.
Lemma early_head n b l : early n (b :: l) -> leaf b = false -> n = 0 \/ notes (inl b) = 0.
Proof. intros H L. destruct (notes (inl b)) as [|c] eqn:E; [now right|left]. specialize (H [] b l eq_refl L). cbn in H. lia. Qed.
Lemma early_tail n b l : early n (b :: l) -> early (n + notes (note_texts b)) l.
Proof.
  intros H pre d post E L N. specialize (H (b :: pre) d post). rewrite E in H. specialize (H eq_refl L N). change (b :: pre) with ([b] ++ pre) in H. rewrite texts_app, notes_app in H.
  rewrite texts_one in H. lia.
Qed.
Lemma early_left n a b : early n (a ++ b) -> early n a.
Proof. intros H pre d post E. apply (H pre d (post ++ b)). now rewrite E, <- app_assoc. Qed.
Lemma early_right n a b : early n (a ++ b) -> early (n + notes (texts_of a)) b.
Proof.
  intros H pre d post E L N. specialize (H (a ++ pre) d post). rewrite E, <- app_assoc in H. specialize (H eq_refl L N). rewrite texts_app, notes_app in H. lia.
Qed.

Section Extract.
  Variable doc : bytes.
  Definition go_notes := fix go (l : list block) (n : nat) : result (list block * list block) :=
           match l with
           | [] => Ok ([], [])
           | x :: r =>
               let* (x', d) := extract_footnotes x n doc in
               let* (r', ds) := go r (n + List.length d) in
               Ok (x' :: r', d ++ ds)
           end.
  Definition good_extract (b : block) : Prop := forall n b' ds, early n (in_order b) -> extract_footnotes b n doc = Ok (b', ds) -> numbered doc n (inl b) (inl b') ds.
  Lemma go_numbered l : Forall good_extract l -> forall n l' ds, early n (orders l) -> go_notes l n = Ok (l', ds) -> numbered doc n (texts_of (orders l)) (texts_of (orders l')) ds.
  Proof.
    induction 1 as [|x l X F IH]; intros n l' ds E H; cbn [go_notes] in H; [injection H as <- <-; constructor|].
    apply bind_ok in H as ([x' d] & H1 & H). apply bind_ok in H as ([r' ds'] & H2 & H). injection H as <- <-. rewrite !orders_cons.
    unfold orders in E. cbn in E. assert (numbered doc n (inl x) (inl x') d) as N1 by (apply X; [eapply early_left, E|exact H1]).
    apply numbered_app; [exact N1|]. apply IH; [|exact H2]. apply early_right in E. rewrite (numbered_length _ _ _ _ _ N1). exact E.
  Qed.
  Lemma extract_eq h m k loc n : extract_footnotes (Blk h m k loc) n doc =
      match h with
      | HSection _ _ _ | HParent _ _ _ _ | HList _ | HDList =>
          let* (k', ds) := go_notes k 0 in Ok (Blk h m k' loc, ds)
      | HListItem mk p =>
          let (p', d0) := extract_inline_footnotes p 0 doc in
          let* (k', ds) := go_notes k (List.length d0) in
          Ok (Blk (HListItem mk p') m k' loc, d0 ++ ds)
      | HDListItem t p =>
          let (p', d0) := extract_inline_footnotes p 0 doc in
          let* (k', ds) := go_notes k (List.length d0) in
          Ok (Blk (HDListItem t p') m k' loc, d0 ++ ds)
      | HLeaf nm f d l =>
          let (l', ds) := extract_inline_footnotes l n doc in
          Ok (Blk (HLeaf nm f d l') m k loc, ds)
      | HBreak _ | HMacro _ _ | HCell _ => Panic
      end.
  Proof. destruct h; reflexivity. Qed.
  Lemma all_numbered b : Forall (fun x => leaf x = true -> b_kids x = []) (in_order b) -> good_extract b.
  Proof.
    induction b as [h m k loc IH] using block_ind'. intros LK n b' ds E H. cbn [in_order] in LK, E. apply Forall_cons_iff in LK as [L0 LK].
    assert (Forall good_extract k) as IHk.
    { clear -IH LK. induction k as [|x k IHk]; [constructor|]. apply Forall_cons_iff in IH as [I1 I2]. cbn in LK. apply Forall_app in LK as [K1 K2]. constructor; auto. }
    clear IH LK. rewrite extract_eq in H. change (in_order _) with (Blk h m k loc :: orders k) in E. fold (orders k) in E.
    pose proof (early_tail _ _ _ E) as ET. pose proof (early_head _ _ _ E) as EH. rewrite inl_eq in EH.
    assert (forall p p' h' d0 k' ds', note_texts (Blk h m k loc) = p -> note_texts (Blk h' m k' loc) = p' -> leaf (Blk h m k loc) = false ->
              extract_inline_footnotes p 0 doc = (p', d0) -> go_notes k (List.length d0) = Ok (k', ds') ->
              numbered doc n (inl (Blk h m k loc)) (inl (Blk h' m k' loc)) (d0 ++ ds')) as ITEM.
    { intros p p' h' d0 k' ds' P P' L X G. specialize (EH L). rewrite P in *. rewrite !inl_eq, P, P'. apply inline_numbered in X.
      assert (numbered doc 0 (p ++ texts_of (orders k)) (p' ++ texts_of (orders k')) (d0 ++ ds')) as Z.
      { apply numbered_app; [exact X|]. pose proof (numbered_length _ _ _ _ _ X) as LX. apply go_numbered; [exact IHk| |exact G].
        destruct EH as [->|Z]; [now rewrite LX|]. rewrite notes_app in Z. rewrite LX. replace (notes p) with 0 by lia. eapply early_zero, ET. }
      destruct EH as [->|Z0]; [exact Z|]. eapply numbered_shift; eassumption. }
    assert (forall k' ds', note_texts (Blk h m k loc) = [] -> leaf (Blk h m k loc) = false -> go_notes k 0 = Ok (k', ds') ->
              numbered doc n (inl (Blk h m k loc)) (inl (Blk h m k' loc)) ds') as CONT.
    { intros k' ds' P L G. apply (ITEM [] [] h [] k' ds'); auto. }
    destruct h as [| | | | | | |nm f dl l| |]; try discriminate.
    all: try (apply bind_ok in H as ([k' ds'] & G & H); injection H as <- <-; apply CONT; auto; fail).
    - destruct (extract_inline_footnotes principal 0 doc) as [p' d0] eqn:X. apply bind_ok in H as ([k' ds'] & G & H). injection H as <- <-. now apply (ITEM principal p').
    - destruct (extract_inline_footnotes principal 0 doc) as [p' d0] eqn:X. apply bind_ok in H as ([k' ds'] & G & H). injection H as <- <-. now apply (ITEM principal p').
    - destruct (extract_inline_footnotes l n doc) as [l' ds'] eqn:X. injection H as <- <-. rewrite !inl_eq. specialize (L0 eq_refl). cbn in L0. subst k. cbn. rewrite !app_nil_r.
      now apply inline_numbered.
  Qed.
  Lemma standardize_go l : forall n, standardize_blocks l n doc = go_notes l n.
  Proof. induction l as [|x l IH]; intros n; [reflexivity|]. cbn. destruct (extract_footnotes x n doc) as [[x' d]| | | |]; cbn; try reflexivity. now rewrite IH. Qed.
End Extract.

Lemma standardized a a' : standardize_footnotes a = Ok a' -> first_notes (document a) ->
  Forall (fun x => leaf x = true -> b_kids x = []) (document a) ->
  exists bl defs m loc, a_blocks a' = bl ++ [Blk (HParent PFootnotes None [] []) m defs loc]
    /\ numbered (a_docid a) 0 (texts_of (document a)) (texts_of (List.concat (map in_order bl))) defs.
Proof.
  intros H E LK. unfold standardize_footnotes in H. apply bind_ok in H as ([bl defs] & S & H). rewrite standardize_go in S.
  assert (early 0 (orders (a_blocks a))) as E0.
  { intros pre d post Q L N. cbn. apply (E pre d post Q); [|exact N]. intros x f dl y K. unfold leaf in L. now rewrite K in L. }
  assert (Forall (good_extract (a_docid a)) (a_blocks a)) as G.
  { unfold document in LK. clear -LK. induction (a_blocks a) as [|x l IH]; [constructor|]. cbn in LK. apply Forall_app in LK as [L1 L2]. constructor; [now apply all_numbered|auto]. }
  pose proof (go_numbered _ _ G 0 _ _ E0 S) as N. unfold asg_push_block in H. cbn in H. injection H as <-. cbn. eexists bl, defs, _, _. split; [reflexivity|exact N].
Qed.

(** ** Numbers are different *)
Lemma chr_digit n : n < 10 -> is_digit (chr (48 + n)) = true /\ (N_of_ascii (chr (48 + n)) - 48)%N = N.of_nat n.
Proof. intros H. do 10 (destruct n as [|n]; [split; reflexivity|]). lia. Qed.
Lemma dec_fuel_val f : forall n, n < f -> digits_val 0 (dec_fuel f n) = Some (N.of_nat n).
Proof.
  induction f as [|f IH]; intros n L; [lia|]. cbn [dec_fuel]. destruct (n <? 10) eqn:T.
  - apply Nat.ltb_lt in T. destruct (chr_digit n T) as [A B]. cbn [digits_val]. rewrite A, B. reflexivity.
  - apply Nat.ltb_ge in T. assert (n mod 10 < 10) as M by (apply Nat.mod_upper_bound; lia). destruct (chr_digit _ M) as [A B].
    assert (n / 10 < n) as D by (apply Nat.div_lt; lia). rewrite digits_val_snoc, IH by lia. rewrite A, B. f_equal. pose proof (Nat.div_mod n 10). lia.
Qed.
Lemma dec_inj i j : dec i = dec j -> i = j.
Proof. unfold dec. intros H. apply (f_equal (digits_val 0)) in H. rewrite !dec_fuel_val in H by lia. injection H. lia. Qed.
Lemma numbered_nth doc n l l' ds : numbered doc n l l' ds -> forall i d, nth_error ds i = Some d -> exists kids, definition doc (n + S i) kids d.
Proof.
  induction 1 as [n|n i0 l l' ds N _ IH|n f kids m loc o l l' ds i0 d0 R D _ IH]; intros i d E.
  - destruct i; discriminate.
  - now apply IH.
  - destruct i as [|i]; cbn in E.
    + injection E as <-. exists kids. now rewrite Nat.add_1_r.
    + apply IH in E. now rewrite Nat.add_succ_comm in E.
Qed.
Lemma ids_differ doc n l l' ds : numbered doc n l l' ds -> forall i j d d' id, nth_error ds i = Some d -> nth_error ds j = Some d' -> has_id d id -> has_id d' id -> i = j.
Proof.
  intros H i j d d' id Ei Ej. destruct (numbered_nth _ _ _ _ _ H _ _ Ei) as (k1 & (? & ? & ? & m1 & ? & ? & -> & (z1 & -> & M1) & _)).
  destruct (numbered_nth _ _ _ _ _ H _ _ Ej) as (k2 & (? & ? & ? & m2 & ? & ? & -> & (z2 & -> & M2) & _)).
  intros (y1 & Y1 & I1) (y2 & Y2 & I2). cbn in Y1, Y2. injection Y1 as <-. injection Y2 as <-. rewrite M1 in I1. rewrite M2 in I2. rewrite <- I1 in I2. injection I2 as I2.
  unfold def_id in I2. apply app_inv_head in I2. injection I2 as I2. apply dec_inj in I2. lia.
Qed.
Lemma footnotes_numbered a a' : standardize_footnotes a = Ok a' -> first_notes (document a) ->
  (forall b n f d l, In b (document a) -> b_head b = HLeaf n f d l -> b_kids b = []) ->
  exists bl defs m loc, a_blocks a' = bl ++ [Blk (HParent PFootnotes None [] []) m defs loc]
    /\ numbered (a_docid a) 0 (texts_of (document a)) (texts_of (List.concat (map in_order bl))) defs
    /\ List.length defs = notes (texts_of (document a))
    /\ forall i j d d' id, nth_error defs i = Some d -> nth_error defs j = Some d' -> has_id d id -> has_id d' id -> i = j.
Proof.
  intros H E LK. assert (Forall (fun x => leaf x = true -> b_kids x = []) (document a)) as F.
  { apply Forall_forall. intros x X L. unfold leaf in L. destruct (b_head x) eqn:HX; try discriminate. eapply LK; eassumption. }
  destruct (standardized _ _ H E F) as (bl & defs & m & loc & B & N). exists bl, defs, m, loc. split; [exact B|]. split; [exact N|]. split; [eapply numbered_length, N|]. eapply ids_differ, N.
Qed.
