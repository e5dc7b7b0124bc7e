(** * Lemmas on element metadata *)
From Coq Require Import Permutation.
From Verif Require Import Base World Location Token Meta Inline Block Asg Parser Json Html Docx SpecDoc SpecMeta ScanLemmas GraphLemmas TreeInd DocGraph DocxProofs.
Local Open Scope char_scope.
Local Open Scope nat_scope.

(** ** C27 *)
Lemma minsert_mget {V} k k' (v : V) m : mget k (minsert k' v m) = if beqb k k' then Some v else mget k m.
Proof.
  induction m as [|[k1 v1] m IH]; cbn; [reflexivity|]. destruct (beqb k' k1) eqn:E.
  - apply beqb_eq in E as ->. cbn. now destruct (beqb k k1).
  - cbn. rewrite IH. destruct (beqb k k1) eqn:E1; [|reflexivity]. apply beqb_eq in E1 as ->.
    destruct (beqb k1 k') eqn:E2; [|reflexivity]. apply beqb_eq in E2 as ->. now rewrite beqb_refl in E.
Qed.
Lemma merge_mget inc : NoDup (map fst inc) -> forall (a : list (bytes * bytes)) k,
  mget k (fold_left (fun a kv => minsert (fst kv) (snd kv) a) inc a) = match mget k inc with Some v => Some v | None => mget k a end.
Proof.
  induction inc as [|[k1 v1] inc IH]; intros N a k; [reflexivity|]. inversion N as [|? ? N1 N2]. subst. cbn [fold_left fst snd]. rewrite IH by exact N2.
  rewrite minsert_mget. cbn [mget]. destruct (beqb k k1) eqn:E; [|reflexivity]. apply beqb_eq in E as ->.
  destruct (mget k1 inc) as [v|] eqn:M; [|reflexivity]. exfalso. apply N1. clear -M. induction inc as [|[k v'] inc IH]; [discriminate|].
  cbn in *. destruct (beqb k1 k) eqn:E; [apply beqb_eq in E as ->; now left|right; auto].
Qed.
Lemma merged m inc : NoDup (map fst (m_attrs inc)) ->
  (forall k, mget k (m_attrs (add_metadata_from_other m inc)) = match mget k (m_attrs inc) with Some v => Some v | None => mget k (m_attrs m) end)
  /\ m_options (add_metadata_from_other m inc) = m_options m ++ m_options inc
  /\ m_roles (add_metadata_from_other m inc) = m_roles m ++ m_options inc
  /\ m_type (add_metadata_from_other m inc) = m_type m /\ m_inline (add_metadata_from_other m inc) = m_inline m
  /\ m_loc (add_metadata_from_other m inc) = m_loc m.
Proof. intros N. split; [|now repeat split]. intros k. now apply merge_mget. Qed.

(** ** C26 *)
Lemma mget_some {V} k (v : V) m : mget k m = Some v -> In (k, v) m.
Proof.
  induction m as [|[k' v'] m IH]; [discriminate|]. cbn. destruct (beqb k k') eqn:E; [|intros H; right; auto].
  apply beqb_eq in E as ->. intros [= ->]. now left.
Qed.
Lemma same_mget {V} (a b : list (bytes * V)) k : same_map a b -> mget k a = mget k b.
Proof.
  intros [N P]. assert (NoDup (map fst b)) as N' by (eapply Permutation_NoDup; [|exact N]; now apply Permutation_map).
  destruct (mget k a) as [v|] eqn:E.
  - apply mget_some in E. symmetry. apply mget_unique; [exact N'|]. eapply Permutation_in; eassumption.
  - destruct (mget k b) as [v|] eqn:E'; [|reflexivity]. apply mget_some in E'. apply Permutation_sym in P.
    apply (Permutation_in _ P) in E'. apply (mget_unique _ _ _ N) in E'. congruence.
Qed.
Lemma same_class m m' : same_meta m m' -> class_attr m = class_attr m'.
Proof. destruct m, m'; cbn; try tauto. now intros (_ & _ & -> & _). Qed.
Lemma same_attr k m m' : same_meta m m' -> meta_attr k m = meta_attr k m'.
Proof. destruct m, m'; cbn; try tauto. intros (S & _). now rewrite (same_mget _ _ (bs k) S). Qed.
Lemma map_same {A B} (R : A -> A -> Prop) (f : A -> B) l l' : Forall2 R l l' -> Forall (fun x => forall y, R x y -> f x = f y) l -> map f l = map f l'.
Proof.
  induction 1 as [|x y l l' H _ IH]; intros F; [reflexivity|]. inversion F as [|? ? Fx Fl]. subst. cbn. now rewrite (Fx _ H), IH.
Qed.
Lemma same_html_inline i : forall i', same_inline i i' -> html_inline i = html_inline i'.
Proof.
  induction i using inline_ind'; intros i' S; inversion S; subst; clear S; cbn [html_inline]; try reflexivity.
  - match goal with M : same_meta _ _ |- _ => rewrite (same_class _ _ M) end. now rewrite (map_same same_inline html_inline l l').
  - match goal with M : same_meta _ _ |- _ => rewrite (same_class _ _ M) end.
    rewrite (map_same same_inline html_inline l l') by assumption.
    match goal with L : Forall2 same_inline l l' |- _ => destruct L end; reflexivity.
Qed.
Lemma same_html_inlines l l' : same_inlines l l' -> html_inlines l = html_inlines l'.
Proof.
  intros S. unfold html_inlines. rewrite (map_same same_inline html_inline l l'); [reflexivity|exact S|].
  apply Forall_forall. intros i _. apply same_html_inline.
Qed.
Lemma same_cells k k' : Forall2 same_block k k' -> forall idx, html_inlines (cell_inlines k idx) = html_inlines (cell_inlines k' idx).
Proof.
  induction 1 as [|b b' k k' H _ IH]; intros [|idx]; try reflexivity; [|apply IH].
  unfold cell_inlines. cbn. destruct H as [h h' m m' k1 k1' loc H _ _]. destruct H; try reflexivity; now apply same_html_inlines.
Qed.
Lemma same_html_cell t k k' : Forall2 same_block k k' -> forall idx, html_cell t k idx = html_cell t k' idx.
Proof. intros S idx. unfold html_cell. now rewrite (same_cells _ _ S). Qed.
Lemma same_body_cells cols k k' num : Forall2 same_block k k' -> forall idxs, html_body_cells cols k num idxs = html_body_cells cols k' num idxs.
Proof.
  intros S. induction idxs as [|i r IH]; [reflexivity|]. cbn [html_body_cells]. rewrite IH. now rewrite (same_html_cell _ _ _ S).
Qed.
Lemma same_html_table w m m' k k' : same_meta m m' -> Forall2 same_block k k' -> html_table w m k = html_table w m' k'.
Proof.
  intros M S. unfold html_table. destruct m as [x|], m' as [y|]; try destruct M; [|reflexivity]. destruct H0 as (O & _). rewrite (same_mget _ _ (bs "cols") H).
  destruct (mget _ (m_attrs y)) as [cv|]; [|reflexivity]. rewrite O. rewrite (Forall2_len _ _ _ S). cbv zeta. destruct (_ || _); [reflexivity|].
  rewrite (same_body_cells _ _ _ _ S). assert (forall l, map (html_cell "th" k) l = map (html_cell "th" k') l) as E.
  { intros l. apply map_ext. intros i. apply (same_html_cell _ _ _ S). }
  now rewrite E.
Qed.
Lemma same_html_block w b : forall b' skip, same_block b b' -> html_block w skip b = html_block w skip b'.
Proof.
  induction b as [h m k loc IH] using block_ind'. intros b' skip S. inversion S as [? h' ? m' ? k' ? H M K]. subst. clear S.
  set (go := fix go (skip : bool) (l : list block) : result (list piece) :=
        match l with
        | [] => Ok []
        | x :: r => let* p := html_block w skip x in let* q := go skip r in Ok (p ++ q)
        end).
  assert (forall s, go s k = go s k') as G.
  { intros s. clear -IH K. induction K as [|x y k k' X _ IHk]; [reflexivity|]. inversion IH as [|? ? I1 I2]. subst. cbn. rewrite (I1 _ s X). now rewrite (IHk I2). }
  cbn [html_block]. fold go. rewrite !G.
  assert (html_attribution m = html_attribution m') as A by (unfold html_attribution; now rewrite !(same_attr _ _ _ M)).
  rewrite A, (same_class _ _ M).
  destruct H as [id t t' lv L|v|mk p p' L| |t t' p p' L L2|v|t c c' L|n f d l l' L|n v d t t' L|l l' L]; cbn [html_title html_image html_principal html_terms block_tag block_data_type block_id_attr is_admonition];
    rewrite ?(same_attr _ _ _ M); try reflexivity.
  - rewrite (same_html_inlines _ _ L). destruct L; reflexivity.
  - rewrite (same_html_inlines _ _ L). destruct L; reflexivity.
  - rewrite (same_html_inlines _ _ L), (same_html_inlines _ _ L2). destruct L, L2; reflexivity.
  - rewrite (same_html_inlines _ _ L). destruct L; reflexivity.
  - unfold html_leaf. rewrite (same_html_inlines _ _ L), (same_class _ _ M). destruct n; try reflexivity. now rewrite (same_attr _ _ _ M).
  - rewrite (same_html_inlines _ _ L), (same_html_table w m m' k k' M K). destruct L; reflexivity.
  - now rewrite (same_html_inlines _ _ L).
Qed.
Lemma same_html w a b : same_graph a b -> render_htmlbook w a = render_htmlbook w b.
Proof.
  intros (B & _ & _ & H). unfold render_htmlbook, html_document.
  assert (html_blocks w (a_blocks a) = html_blocks w (a_blocks b)) as ->.
  { induction B as [|x y l l' X _ IH]; [reflexivity|]. cbn. now rewrite (same_html_block w x y false X), IH. }
  destruct (a_header a) as [h|], (a_header b) as [h'|]; try destruct H as [T _]; try reflexivity; try destruct H. now rewrite (same_html_inlines _ _ T).
Qed.

(** the docx rendering *)
Lemma same_runs i : forall i' lb vs, same_inline i i' -> runs_with_variant lb vs i = runs_with_variant lb vs i'.
Proof.
  assert (forall l, Forall (fun i => forall i' lb vs, same_inline i i' -> runs_with_variant lb vs i = runs_with_variant lb vs i') l ->
    forall l', same_inlines l l' -> forall lb vs, runs_with_variant_list lb vs l = runs_with_variant_list lb vs l') as G.
  { intros l F l' S. induction S as [|x y l l' X _ IH]; intros lb vs; [reflexivity|]. inversion F as [|? ? F1 F2]. subst. cbn.
    rewrite (F1 _ lb vs X). destruct (runs_with_variant lb vs y) as [[? ?] ?]. now rewrite IH. }
  induction i using inline_ind'; intros i' lb vs S; inversion S; subst; clear S; cbn [runs_with_variant]; try reflexivity.
  - rewrite !go_list. now apply G.
  - rewrite !go_list. now apply G.
Qed.
Lemma same_runs_list l l' : same_inlines l l' -> forall lb vs, runs_with_variant_list lb vs l = runs_with_variant_list lb vs l'.
Proof.
  induction 1 as [|x y l l' X _ IH]; intros lb vs; [reflexivity|]. cbn. rewrite (same_runs _ _ lb vs X). destruct (runs_with_variant lb vs y) as [[? ?] ?]. now rewrite IH.
Qed.
Lemma same_runs_top l l' : same_inlines l l' -> forall lb, runs_from_inlines lb l = runs_from_inlines lb l'.
Proof.
  induction 1 as [|x y l l' X _ IH]; intros lb; [reflexivity|]. cbn.
  assert (runs_from_inline lb x = runs_from_inline lb y) as ->; [|destruct (runs_from_inline lb y); now rewrite IH].
  destruct X; cbn; try reflexivity; now rewrite (same_runs_list l0 l'0).
Qed.
Lemma same_inline_runs l l' st : same_inlines l l' -> inline_runs st l = inline_runs st l'.
Proof. intros S. destruct st. unfold inline_runs. now rewrite (same_runs_top _ _ S). Qed.
Lemma same_paragraph l l' st num : same_inlines l l' -> add_inlines_paragraph st num l = add_inlines_paragraph st num l'.
Proof. intros S. unfold add_inlines_paragraph. now rewrite (same_inline_runs _ _ st S). Qed.
Lemma same_block_inlines b : forall b', same_block b b' -> same_inlines (block_inlines b) (block_inlines b').
Proof.
  induction b as [h m k loc IH] using block_ind'. intros b' S. inversion S as [? h' ? m' ? k' ? H M K]. subst. clear S. cbn [block_inlines].
  apply Forall2_app.
  - destruct H; try assumption; constructor.
  - induction K as [|x y k k' X _ IHk]; [constructor|]. inversion IH as [|? ? I1 I2]. subst. cbn. apply Forall2_app; auto.
Qed.
Lemma same_rows cells cells' : Forall2 same_block cells cells' -> forall st cols num idx cur rows,
  table_rows st cols num idx cells cur rows = table_rows st cols num idx cells' cur rows.
Proof.
  induction 1 as [|x y l l' X _ IH]; intros; [reflexivity|]. cbn [table_rows]. rewrite (same_inline_runs _ _ st (same_block_inlines _ _ X)).
  destruct (inline_runs st (block_inlines y)). destruct (docx_row_break cols idx num) as [[]| | | |]; cbn; auto.
Qed.
Lemma same_table st m m' k k' : same_meta m m' -> Forall2 same_block k k' -> docx_table st m k = docx_table st m' k'.
Proof.
  intros M K. unfold docx_table. rewrite (Forall2_len _ _ _ K). destruct m as [x|], m' as [y|]; try destruct M as [M _]; try reflexivity; try destruct M.
  - rewrite (same_mget _ _ (bs "cols") (conj H H0)). destruct (match mget _ (m_attrs y) with Some c => _ | None => _ end) as [c| | | |]; cbn [bind]; try reflexivity.
    now rewrite (same_rows _ _ K).
  - cbn [bind]. now rewrite (same_rows _ _ K).
Qed.
Lemma same_docx_block img b : forall b' st, same_block b b' -> docx_block img st b = docx_block img st b'.
Proof.
  induction b as [h m k loc IH] using block_ind'. intros b' st S. inversion S as [? h' ? m' ? k' ? H M K]. subst. clear S.
  set (go := fix go (st : writer * docx) (l : list block) : dres (writer * docx) :=
          match l with [] => Ok st | x :: r => let* st' := docx_block img st x in go st' r end).
  assert (forall s, go s k = go s k') as G.
  { clear -IH K. induction K as [|x y k k' X _ IHk]; [reflexivity|]. inversion IH as [|? ? I1 I2]. subst. intros s. cbn. rewrite (I1 _ s X).
    destruct (docx_block img s y); cbn; auto. }
  assert (forall st, fold_left (fun s b => add_inlines_paragraph s None (block_inlines b)) k st = fold_left (fun s b => add_inlines_paragraph s None (block_inlines b)) k' st) as GF.
  { clear -K. induction K as [|x y k k' X _ IHk]; intros st; [reflexivity|]. cbn. rewrite (same_paragraph _ _ st None (same_block_inlines _ _ X)). apply IHk. }
  cbn [docx_block]. fold go.
  destruct H as [id t t' lv L|v|mk p p' L| |t t' p p' L L2|v|t c c' L|n f d l l' L|n v d t t' L|l l' L]; try reflexivity.
  - assert (match t with [] => st | _ => reset_style (add_inlines_paragraph (set_style st (DHeading lv)) None t) end
      = match t' with [] => st | _ => reset_style (add_inlines_paragraph (set_style st (DHeading lv)) None t') end) as ->; [|apply G].
    rewrite (same_paragraph _ _ _ _ L). destruct L; reflexivity.
  - apply G.
  - f_equal. unfold docx_list_item. rewrite (same_paragraph _ _ _ _ L). rewrite GF. destruct K; reflexivity.
  - apply G.
  - rewrite (same_paragraph _ _ _ _ L), (same_paragraph _ _ _ _ L2). apply G.
  - f_equal. now apply same_paragraph.
  - rewrite (same_table st m m' k k' M K).
    assert (mget (bs "attribution") (m_attrs (get_meta m)) = mget (bs "attribution") (m_attrs (get_meta m'))) as A.
    { destruct m, m'; try destruct M; try reflexivity. now apply same_mget. }
    assert (forall s, (match m with
                  | Some md => match mget (bs "attribution") (m_attrs md) with
                               | Some a => add_paragraph s None [text_run (bs "— " ++ a ++ [NL])]
                               | None => s
                               end
                  | None => s
                  end) = (match m' with
                  | Some md => match mget (bs "attribution") (m_attrs md) with
                               | Some a => add_paragraph s None [text_run (bs "— " ++ a ++ [NL])]
                               | None => s
                               end
                  | None => s
                  end)) as E.
    { intros s. destruct m, m'; try destruct M; try reflexivity. cbn [get_meta] in A. now rewrite A. }
    assert (forall s name, (match t with [] => s | _ => add_inlines_paragraph (set_style s (DSectionTitle name)) None t end)
       = (match t' with [] => s | _ => add_inlines_paragraph (set_style s (DSectionTitle name)) None t' end)) as T.
    { intros s name. rewrite (same_paragraph _ _ _ _ L). destruct L; reflexivity. }
    destruct n; rewrite ?T, ?G; try reflexivity. destruct (go (set_style st DQuote) k'); cbn [bind]; try reflexivity. now rewrite E.
Qed.
Lemma same_docx img a b : same_graph a b -> render_docx img a = render_docx img b.
Proof.
  intros (B & _ & _ & H). unfold render_docx.
  assert (forall st, docx_blocks img st (a_blocks a) = docx_blocks img st (a_blocks b)) as E.
  { induction B as [|x y l l' X _ IH]; intros st; [reflexivity|]. cbn. rewrite (same_docx_block img x y st X). destruct (docx_block img st y); cbn; auto. }
  rewrite E. destruct (a_header a) as [h|], (a_header b) as [h'|]; try destruct H as [T _]; try reflexivity; try destruct H.
  destruct T as [|x y l l' X L]; [reflexivity|]. now rewrite (same_inline_runs (x :: l) (y :: l') _ (Forall2_cons _ _ X L)).
Qed.

(** the JSON value *)
Notation same_members := (Forall2 (fun x y : bytes * json => fst x = fst y /\ same_json (snd x) (snd y))).
Fixpoint same_json_refl (j : json) : same_json j j :=
  match j with
  | JStr s => same_str s
  | JNum n => same_num n
  | JArr l => same_arr l l ((fix go (l : list json) : Forall2 same_json l l :=
      match l with [] => Forall2_nil _ | x :: r => Forall2_cons x x (same_json_refl x) (go r) end) l)
  | JObj l => same_obj l l l (Permutation_refl l) ((fix go (l : list (bytes * json)) : same_members l l :=
      match l with [] => Forall2_nil _ | x :: r => Forall2_cons x x (conj eq_refl (same_json_refl (snd x))) (go r) end) l)
  end.
Lemma same_members_refl l : same_members l l.
Proof. induction l; constructor; [split; [reflexivity|apply same_json_refl]|assumption]. Qed.
Lemma same_obj' l l' : same_members l l' -> same_json (JObj l) (JObj l').
Proof. intros H. eapply same_obj; [apply Permutation_refl|exact H]. Qed.
Lemma same_json_map a b : same_map a b -> same_json (json_of_map a) (json_of_map b).
Proof. intros [_ P]. eapply same_obj; [apply Permutation_map; exact P|apply same_members_refl]. Qed.
Lemma same_jmeta m m' : same_meta m m' -> same_members (jmeta m) (jmeta m').
Proof.
  destruct m, m'; cbn [same_meta]; try tauto; [|constructor]. intros (A & O & R & _ & _ & L). unfold jmeta. repeat constructor.
  cbn [snd]. unfold json_of_meta. rewrite O, R, L. apply same_obj'. constructor; [|apply same_members_refl]. split; [reflexivity|]. now apply same_json_map.
Qed.
Ltac members :=
  repeat first
    [ apply same_members_refl
    | assumption
    | apply Forall2_app
    | apply Forall2_cons; [split; [reflexivity|cbn [snd]; try apply same_json_refl]|] ].
Lemma map_same_json {A} (R : A -> A -> Prop) (f : A -> json) l l' : Forall2 R l l' -> Forall (fun x => forall y, R x y -> same_json (f x) (f y)) l ->
  same_json (JArr (map f l)) (JArr (map f l')).
Proof.
  intros H F. apply same_arr. induction H as [|x y l l' H _ IH]; [constructor|]. inversion F as [|? ? Fx Fl]. subst. cbn. constructor; auto.
Qed.
Lemma same_json_inline i : forall i', same_inline i i' -> same_json (json_of_inline i) (json_of_inline i').
Proof.
  induction i using inline_ind'; intros i' S; inversion S; subst; clear S; cbn [json_of_inline]; try apply same_json_refl.
  - apply same_obj'. members; [now apply (map_same_json same_inline)|now apply same_jmeta].
  - apply same_obj'. members; [now apply (map_same_json same_inline)|now apply same_jmeta].
Qed.
Lemma same_jinlines l l' : same_inlines l l' -> same_json (jinlines l) (jinlines l').
Proof. intros S. apply (map_same_json same_inline); [exact S|]. apply Forall_forall. intros i _. apply same_json_inline. Qed.
Lemma same_opt_field {A} (R : A -> A -> Prop) k l l' j j' : Forall2 R l l' -> same_json j j' -> same_members (opt_field k l j) (opt_field k l' j').
Proof. intros [|x y r r' H L] J; cbn; [constructor|]. repeat constructor. exact J. Qed.
Lemma same_json_block b : forall b', same_block b b' -> same_json (json_of_block b) (json_of_block b').
Proof.
  induction b as [h m k loc IH] using block_ind'. intros b' S. inversion S as [? h' ? m' ? k' ? H M K]. subst. clear S.
  assert (same_json (JArr (map json_of_block k)) (JArr (map json_of_block k'))) as G by now apply (map_same_json same_block).
  pose proof (same_jmeta _ _ M) as J. cbn [json_of_block].
  destruct H as [id t t' lv L|v|mk p p' L| |t t' p p' L L2|v|t c c' L|n f d l l' L|n v d t t' L|l l' L];
    try (destruct v); apply same_obj'; members; try exact G; try (now apply same_jinlines);
    try (eapply same_opt_field; [eassumption|]; try exact G; now apply same_jinlines).
Qed.
Lemma same_json_asg a b : same_graph a b -> same_json (json_of_asg a) (json_of_asg b).
Proof.
  intros (B & L & A & H). unfold json_of_asg. rewrite L. apply same_obj'. members.
  - destruct (a_attrs a), (a_attrs b); try destruct A; members. now apply same_json_map.
  - destruct (a_header a) as [h|], (a_header b) as [h'|]; try destruct H as [T E]; try destruct H; members. unfold json_of_header. rewrite E. apply same_obj'. members.
    now apply same_jinlines.
  - apply (map_same_json same_block); [exact B|]. apply Forall_forall. intros x _. apply same_json_block.
Qed.

Lemma same_rendered a b : same_graph a b ->
  (forall w, render_htmlbook w a = render_htmlbook w b) /\ (forall img, render_docx img a = render_docx img b)
  /\ same_json (json_of_asg a) (json_of_asg b).
Proof. intros S. split; [|split]; intros; [now apply same_html|now apply same_docx|now apply same_json_asg]. Qed.

(** merging does not depend on the order of the incoming entries *)
Lemma mget_keys {V} k (m : list (bytes * V)) : mget k m = None <-> ~ In k (map fst m).
Proof.
  induction m as [|[k' v] m IH]; cbn; [tauto|]. destruct (beqb k k') eqn:E.
  - apply beqb_eq in E as ->. split; [discriminate|intros []; now left].
  - rewrite IH. split; [intros H [->|]; [now rewrite beqb_refl in E|contradiction]|tauto].
Qed.
Lemma same_map_mget (a b : list (bytes * bytes)) : NoDup (map fst a) -> NoDup (map fst b) -> (forall k, mget k a = mget k b) -> same_map a b.
Proof.
  intros A B H. split; [exact A|]. apply NoDup_Permutation; [now apply NoDup_map_inv in A|now apply NoDup_map_inv in B|]. intros [k v]. split; intros I.
  - apply mget_some. rewrite <- H. now apply mget_unique.
  - apply mget_some. rewrite H. now apply mget_unique.
Qed.
Lemma merge_nodup inc : forall (a : list (bytes * bytes)), NoDup (map fst a) -> NoDup (map fst (fold_left (fun a kv => minsert (fst kv) (snd kv) a) inc a)).
Proof. induction inc as [|[k v] inc IH]; intros a N; [exact N|]. cbn. apply IH. now apply minsert_nodup. Qed.
Lemma same_merge m m' i i' : same_meta (Some m) (Some m') -> same_meta (Some i) (Some i') ->
  same_meta (Some (add_metadata_from_other m i)) (Some (add_metadata_from_other m' i')).
Proof.
  intros (A & O & R & I & T & L) (A' & O' & R' & I' & T' & L'). cbn. rewrite O, R, I, T, L, O'. repeat split.
  - apply merge_nodup, A.
  - assert (forall x y : list (bytes * bytes), same_map x y -> NoDup (map fst y)) as N.
    { intros x y [N P]. eapply Permutation_NoDup; [apply Permutation_map; exact P|exact N]. }
    apply same_map_mget.
    + apply merge_nodup, A.
    + apply merge_nodup. eapply N, A.
    + intros k. rewrite !merge_mget; [|exact (N _ _ A')|apply A']. now rewrite (same_mget _ _ k A), (same_mget _ _ k A').
Qed.

(** ** C29 *)
Lemma starts_with_true p s : starts_with p s = true <-> exists t, s = p ++ t.
Proof.
  revert s. induction p as [|x p IH]; intros s; cbn; [split; [intros _; now exists s|reflexivity]|]. destruct s as [|y s].
  - split; [discriminate|intros [t E]; discriminate].
  - rewrite Bool.andb_true_iff, IH. split.
    + intros [E [t ->]]. apply Ascii.eqb_eq in E as ->. now exists t.
    + intros [t [= -> ->]]. split; [apply Ascii.eqb_refl|now exists t].
Qed.
Lemma split_uniq {A} (d : A) x : ~ In d x -> forall y r r', ~ In d y -> x ++ d :: r = y ++ d :: r' -> x = y /\ r = r'.
Proof.
  intros X. induction x as [|a x IH]; intros [|b y] r r' Y E; cbn in *.
  - injection E as ->. auto.
  - injection E as <- _. destruct Y. now left.
  - injection E as -> _. destruct X. now left.
  - injection E as -> E. destruct (IH ltac:(tauto) y r r' ltac:(tauto) E) as [-> ->]. auto.
Qed.
Lemma split_clash {A} (d e : A) x : d <> e -> ~ In e x -> forall y r r', ~ In d y -> x ++ d :: r = y ++ e :: r' -> False.
Proof.
  intros D X. induction x as [|a x IH]; intros [|b y] r r' Y E; cbn in *.
  - injection E as -> _. now destruct D.
  - injection E as <- _. destruct Y. now left.
  - injection E as -> _. destruct X. now left.
  - injection E as -> E. apply (IH ltac:(tauto) y r r' ltac:(tauto) E).
Qed.
Definition okp (p : bytes * bytes) : Prop := name_of (fst p) /\ value_of (snd p).
Lemma name_chars n : name_of n -> forall c, In c n -> c <> "=" /\ c <> DQ /\ c <> "," /\ c <> "|" /\ c <> NL /\ is_cont c = false /\ is_ascii c = true /\ is_ascii_alnum c || Ascii.eqb c "_" = true.
Proof.
  intros [_ F] c I. apply (proj1 (Forall_forall _ _) F) in I. clear F.
  assert ((is_ascii_alnum c || Ascii.eqb c "_") = true) as H.
  { destruct I as [->| ->]; [reflexivity|apply Bool.orb_true_r]. }
  clear I. repeat split; try (intros ->; discriminate); [| |exact H]; revert H; destruct c as [[] [] [] [] [] [] [] []]; vm_compute; congruence.
Qed.
Lemma value_chars v : value_of v -> forall c, In c v -> c <> "=" /\ c <> DQ /\ c <> NL.
Proof. intros [F _] c I. apply (proj1 (Forall_forall _ _) F) in I. tauto. Qed.
Lemma not_in_name n : name_of n -> ~ In "=" n /\ ~ In DQ n /\ ~ In "," n.
Proof. intros H. repeat split; intros I; apply (name_chars _ H) in I; tauto. Qed.
Lemma not_in_value n : value_of n -> ~ In "=" n /\ ~ In DQ n.
Proof. intros H. split; intros I; apply (value_chars _ H) in I; tauto. Qed.

Lemma inside p q a b rest : okp p -> okp q -> pair_text q = a ++ b -> b <> [] -> starts_with (pair_text p) (b ++ rest) = true -> b = pair_text p.
Proof.
  intros [N V] [N' V'] E B S. apply starts_with_true in S as [t S]. destruct (not_in_name _ N) as (N1 & N2 & N3). destruct (not_in_value _ V) as (V1 & V2).
  destruct (not_in_name _ N') as (N1' & N2' & N3'). destruct (not_in_value _ V') as (V1' & V2').
  unfold pair_text in *. destruct p as [n v], q as [n2 v2]. cbn [fst snd app] in *.
  apply app_eq_app in E as [y [[E1 E2]|[E1 E2]]].
  - (* from inside the name *)
    subst b. rewrite <- !app_assoc in S. cbn [app] in S.
    assert (~ In "=" y) as Y by (intros I; apply N1'; rewrite E1; apply in_or_app; now right).
    apply split_uniq in S as [-> S]; [|exact Y|exact N1]. injection S as S. rewrite <- !app_assoc in S. cbn [app] in S. apply split_uniq in S as [-> _]; [|exact V2'|exact V2]. reflexivity.
  - destruct y as [|y0 y].
    { cbn in E2. subst b. cbn [app] in S. exfalso. destruct n as [|c n]; [destruct N as [[] _]; reflexivity|]. injection S as <- _. apply N1. now left. }
    exfalso. injection E2 as _ E2. clear y0 E1.
    assert (exists z, b = z ++ [DQ] /\ ~ In "=" z) as (z & -> & Z).
    { destruct y as [|y1 y]; cbn in E2.
      - subst b. exists (DQ :: v2). split; [reflexivity|]. intros [I|I]; [discriminate|tauto].
      - injection E2 as _ E2. apply app_eq_app in E2 as [z [[E1 E2]|[E1 E2]]].
        + subst. exists z. split; [reflexivity|]. intros I. apply V1', in_or_app. now right.
        + destruct z as [|z0 z]; [exists []; split; [symmetry; exact E2|intros []]|]. injection E2 as _ E2. destruct z; [|discriminate]. cbn in E2. now destruct B. }
    rewrite <- !app_assoc in S. cbn [app] in S. apply split_clash in S; auto. discriminate.
Qed.

(** the text with some of the pairs removed *)
Definition item_text (i : option (bytes * bytes)) : bytes := match i with Some p => pair_text p | None => [] end.
Definition strike (p : bytes * bytes) (i : option (bytes * bytes)) : option (bytes * bytes) :=
  match i with
  | Some q => if beqb (fst p) (fst q) && beqb (snd p) (snd q) then None else Some q
  | None => None
  end.
Lemma pair_eqb p q : beqb (fst p) (fst q) && beqb (snd p) (snd q) = true <-> p = q.
Proof.
  rewrite Bool.andb_true_iff, !beqb_eq. destruct p, q; cbn. split; [intros [-> ->]; reflexivity|intros [= -> ->]; auto].
Qed.
Lemma skip_segment pat u : (forall a b, u = a ++ b -> b <> [] -> forall rest, starts_with pat (b ++ rest) = false) ->
  forall f rest, remove_all_fuel (List.length u + f) pat (u ++ rest) = u ++ remove_all_fuel f pat rest.
Proof.
  induction u as [|c u IH]; intros H f rest; [reflexivity|]. cbn [List.length Nat.add app remove_all_fuel].
  assert (starts_with pat (c :: u ++ rest) = false) as -> by (apply (H [] (c :: u) eq_refl); discriminate).
  rewrite IH; [reflexivity|]. intros a b -> B. now apply (H (c :: a) b).
Qed.
Lemma remove_pair p : okp p -> forall items, (forall q, In (Some q) items -> okp q /\ forall x, pair_text q = x ++ pair_text p -> p = q) ->
  forall f, List.length (comma_list (map item_text items)) < f ->
  remove_all_fuel f (pair_text p) (comma_list (map item_text items)) = comma_list (map item_text (map (strike p) items)).
Proof.
  intros P. assert (pair_text p <> []) as NE by (unfold pair_text; destruct (fst p); discriminate).
  assert (forall f i rest, (forall q, i = Some q -> okp q /\ forall x, pair_text q = x ++ pair_text p -> p = q) ->
     List.length (item_text i) < f -> exists g, f <= g + List.length (item_text i) /\
     remove_all_fuel f (pair_text p) (item_text i ++ rest) = item_text (strike p i) ++ remove_all_fuel g (pair_text p) rest) as SEG.
  { intros f [q|] rest Q F; [|exists f; cbn; split; [lia|reflexivity]]. destruct (Q q eq_refl) as [OQ U]. clear Q. cbn [item_text strike] in *.
    destruct (beqb (fst p) (fst q) && beqb (snd p) (snd q)) eqn:E.
    - apply pair_eqb in E as <-. destruct f; [lia|]. exists f. split; [destruct (pair_text p); [congruence|cbn; lia]|]. cbn [item_text app].
      destruct (pair_text p ++ rest) as [|c r] eqn:X; [destruct (pair_text p); [congruence|discriminate]|]. cbn [remove_all_fuel]. rewrite <- X.
      assert (starts_with (pair_text p) (pair_text p ++ rest) = true) as -> by (apply starts_with_true; now exists rest).
      f_equal. rewrite skipn_app, skipn_all, Nat.sub_diag. reflexivity.
    - exists (f - List.length (pair_text q)). split; [lia|]. cbn [item_text]. rewrite <- skip_segment; [f_equal; lia|].
      intros a b A B r. destruct (starts_with (pair_text p) (b ++ r)) eqn:S; [|reflexivity]. pose proof (inside p q a b r P OQ A B S) as ->. rewrite (U a A) in E.
      rewrite (proj2 (pair_eqb q q) eq_refl) in E. discriminate. }
  induction items as [|i items IH]; intros Q f F; [destruct f; reflexivity|]. destruct items as [|i2 items].
  - cbn [map comma_list] in *. destruct (SEG f i []) as (g & G & E); [intros q ->; apply Q; now left|exact F|]. rewrite app_nil_r in E. rewrite E. destruct g; apply app_nil_r.
  - set (T := i2 :: items) in *. change (comma_list (map item_text (i :: T))) with (item_text i ++ "," :: comma_list (map item_text T)) in *.
    change (comma_list (map item_text (map (strike p) (i :: T)))) with (item_text (strike p i) ++ "," :: comma_list (map item_text (map (strike p) T))).
    rewrite app_length in F. cbn [List.length] in F.
    destruct (SEG f i ("," :: comma_list (map item_text T))) as (g & G & E); [intros q ->; apply Q; now left|lia|]. rewrite E. f_equal. destruct g; [lia|]. cbn [remove_all_fuel].
    assert (starts_with (pair_text p) ("," :: comma_list (map item_text T)) = false) as ->.
    { destruct (starts_with _ _) eqn:S; [|reflexivity]. apply starts_with_true in S as [t S]. unfold pair_text in S. destruct P as [N _]. pose proof (not_in_name _ N) as (_ & _ & N3).
      destruct (fst p) as [|c n]; [destruct N as [[] _]; reflexivity|]. injection S as <- _. destruct N3. now left. }
    f_equal. apply IH; [intros q I; apply Q; now right|lia].
Qed.
Lemma item_list l : attribute_list l = comma_list (map item_text (map Some l)).
Proof. unfold attribute_list. now rewrite map_map. Qed.
Lemma remove_pairs l ps : Forall okp l -> apart l -> incl ps l -> forall items, (forall q, In (Some q) items -> In q l) ->
  fold_left (fun s q => remove_all q s) (map pair_text ps) (comma_list (map item_text items)) =
  comma_list (map item_text (fold_left (fun it p => map (strike p) it) ps items)).
Proof.
  intros OK A. induction ps as [|p ps IH]; intros I items Q; [reflexivity|]. cbn [map fold_left]. unfold remove_all. rewrite Forall_forall in OK.
  rewrite remove_pair.
  - apply IH; [intros x X; apply I; now right|]. intros q H. apply in_map_iff in H as (i & E & H). destruct i as [q'|]; [|discriminate]. cbn in E.
    destruct (_ && _); [discriminate|]. injection E as <-. now apply Q.
  - apply OK, I. now left.
  - intros q H. split; [apply OK, Q, H|]. intros x E. apply (A p q x); [apply I; now left|apply Q, H|exact E].
  - lia.
Qed.
Lemma strike_all ps : forall items, (forall q, In (Some q) items -> In q ps) -> Forall (fun i => i = None) (fold_left (fun it p => map (strike p) it) ps items).
Proof.
  induction ps as [|p ps IH]; intros items Q.
  - cbn. apply Forall_forall. intros [q|] I; [destruct (Q q I)|reflexivity].
  - cbn [fold_left]. apply IH. intros q H. apply in_map_iff in H as ([q'|] & E & H); [|discriminate]. cbn in E. destruct (_ && _) eqn:B; [discriminate|]. injection E as ->.
    destruct (Q q H) as [->|]; [|assumption]. rewrite (proj2 (pair_eqb q q) eq_refl) in B. discriminate.
Qed.
Lemma none_split items : Forall (fun i => i = None) items -> Forall (fun x => x = []) (split_on (fun c => Ascii.eqb c ",") (comma_list (map item_text items))).
Proof.
  induction 1 as [|i items -> F IH]; [repeat constructor|]. destruct items as [|i2 items]; [repeat constructor|]. constructor; [reflexivity|exact IH].
Qed.

(** the matches of the quoted pattern *)
Lemma chars_ascii c s : (match s with d :: _ => is_cont d = false | [] => True end) -> chars (c :: s) = [c] :: chars s.
Proof.
  intros H. cbn. destruct s as [|d s]; [reflexivity|]. destruct (chars_head d s) as (x & xs & ->). now rewrite H.
Qed.
Lemma chars_name n s : name_of n -> (match s with d :: _ => is_cont d = false | [] => True end) -> chars (n ++ s) = map (fun c => [c]) n ++ chars s.
Proof.
  intros N S. pose proof (name_chars _ N) as C. clear N. induction n as [|c n IH]; [reflexivity|]. cbn [app map]. rewrite chars_ascii.
  - f_equal. apply IH. intros d D. apply C. now right.
  - destruct n as [|d n]; [exact S|]. apply (C d). right. now left.
Qed.
Lemma body_found v rest : value_of v -> forall acc, re_quoted_body acc (v ++ DQ :: rest) = Some (rev acc ++ v ++ [DQ], rest).
Proof.
  intros V. pose proof (value_chars _ V) as C. clear V. induction v as [|c v IH]; intros acc.
  - cbn [app re_quoted_body]. reflexivity.
  - cbn [app re_quoted_body]. destruct (C c (or_introl eq_refl)) as (_ & D & E). rewrite (proj2 (Ascii.eqb_neq c DQ) D), (proj2 (Ascii.eqb_neq c NL) E), IH; [|intros d I; apply C; now right].
    cbn [rev]. now rewrite <- !app_assoc.
Qed.
Lemma word_step w c f word r : (is_ascii c = true /\ c <> "=") -> re_named_quoted w (S f) word ([c] :: r) = if is_ascii_alnum c || Ascii.eqb c "_" then re_named_quoted w f ([c] :: word) r else re_named_quoted w f [] r.
Proof.
  intros [A E]. assert (char_word w [c] = is_ascii_alnum c || Ascii.eqb c "_") as CW.
  { unfold char_word, is_single_byte. now rewrite A. }
  rewrite <- CW. cbn [re_named_quoted]. destruct c as [[] [] [] [] [] [] [] []]; try reflexivity. now destruct E.
Qed.
Lemma word_run w n r : name_of n -> forall f word, re_named_quoted w (List.length n + f) word (map (fun c => [c]) n ++ r) = re_named_quoted w f (rev (map (fun c => [c]) n) ++ word) r.
Proof.
  intros N. pose proof (name_chars _ N) as C. clear N. induction n as [|c n IH]; intros f word; [reflexivity|]. cbn [List.length Nat.add map app].
  destruct (C c (or_introl eq_refl)) as (E & _ & _ & _ & _ & _ & A & W). rewrite word_step by auto. rewrite W, IH; [|intros d D; apply C; now right]. cbn [rev]. now rewrite <- app_assoc.
Qed.
Lemma one_match w p rest f : okp p -> (match rest with d :: _ => is_cont d = false | [] => True end) -> List.length (pair_text p) <= f ->
  exists g, f <= g + List.length (pair_text p) /\ re_named_quoted w f [] (chars (pair_text p ++ rest)) = pair_text p :: re_named_quoted w g [] (chars rest).
Proof.
  intros [N V] R F. destruct p as [n v]. unfold pair_text in *. cbn [fst snd] in *. rewrite !app_length in F. cbn [List.length] in F.
  exists (f - List.length n - 1). split; [rewrite !app_length; cbn [List.length]; lia|].
  rewrite <- !app_assoc. cbn [app]. rewrite chars_name by (auto; reflexivity).
  replace f with (List.length n + S (f - List.length n - 1)) at 1 by lia. rewrite (word_run w n) by exact N. rewrite app_nil_r.
  rewrite (chars_ascii "=") by reflexivity. rewrite (chars_ascii DQ).
  2:{ destruct V as [_ V]. destruct v; [reflexivity|exact V]. }
  cbn [re_named_quoted]. rewrite Ascii.eqb_refl. rewrite unchars_chars, body_found by exact V. cbn [rev app]. rewrite rev_involutive.
  assert (unchars (map (fun c => [c]) n) = n) as -> by (clear; induction n; [reflexivity|]; cbn; unfold unchars in *; now rewrite IHn).
  reflexivity.
Qed.
Lemma matches w l : Forall okp l -> forall f, List.length (attribute_list l) < f -> re_named_quoted w f [] (chars (attribute_list l)) = map pair_text l.
Proof.
  induction 1 as [|p l P L IH]; intros f F; [destruct f; reflexivity|]. destruct l as [|q l].
  - unfold attribute_list in *. cbn [map comma_list] in *. destruct (one_match w p [] f P I) as (g & _ & E); [lia|]. rewrite app_nil_r in E. rewrite E. destruct g; reflexivity.
  - change (attribute_list (p :: q :: l)) with (pair_text p ++ "," :: attribute_list (q :: l)) in *. rewrite app_length in F. cbn [List.length] in F.
    destruct (one_match w p ("," :: attribute_list (q :: l)) f P eq_refl) as (g & G & E); [lia|]. rewrite E. cbn [map]. f_equal.
    rewrite chars_ascii.
    + destruct g; [lia|]. rewrite word_step by (split; [reflexivity|discriminate]). change (is_ascii_alnum "," || Ascii.eqb "," "_") with false. cbv iota. apply IH. lia.
    + assert (forall r, exists c t, attribute_list (q :: r) = c :: t /\ is_cont c = false) as H.
      { intros r. inversion L as [|? ? [N _] _]. subst. pose proof (name_chars _ N) as C. destruct q as [[|c n] v]; [destruct N as [[] _]; reflexivity|].
        exists c. destruct r; eexists; (split; [reflexivity|apply (C c); now left]). }
      destruct (H l) as (c & t & -> & K). exact K.
Qed.
Lemma extracted w l : Forall okp l -> apart l -> exists e, extract_attributes w (attribute_list l) = map pair_text l ++ e /\ Forall (fun x => x = []) e.
Proof.
  intros OK A. unfold extract_attributes. rewrite matches by (auto; lia). eexists. split; [reflexivity|]. rewrite item_list. rewrite (remove_pairs l) with (1 := OK) (2 := A).
  - apply none_split, strike_all. intros q H. apply in_map_iff in H as (x & [= ->] & H). exact H.
  - intros x; auto.
  - intros q H. apply in_map_iff in H as (x & [= ->] & H). exact H.
Qed.

(** one named attribute *)
Lemma split_words v : words v (split_on (fun c => Ascii.eqb c SP) v).
Proof.
  induction v as [|c v (N & E & F)]; [split; [discriminate|split; [reflexivity|]]; repeat constructor; intros []|]. cbn. destruct (Ascii.eqb c SP) eqn:B.
  - apply Ascii.eqb_eq in B as ->. split; [discriminate|]. split; [|constructor; [intros []|exact F]]. destruct (split_on _ v); [congruence|]. cbn [spaced app]. f_equal. exact E.
  - destruct (split_on _ v) as [|x r]; [congruence|]. apply Ascii.eqb_neq in B. inversion F as [|? ? F1 F2]. subst. split; [discriminate|]. split.
    + destruct r; reflexivity.
    + constructor; [|exact F2]. intros [X|X]; [congruence|contradiction].
Qed.
Lemma join_spaced l : join [SP] l = spaced l.
Proof. induction l as [|x l IH]; [reflexivity|]. destruct l; [reflexivity|]. cbn [join spaced app] in *. now rewrite IH. Qed.
Lemma inner_mid a v z : is_cont z = false -> (match v with c :: _ => is_cont c = false | [] => True end) -> inner (a :: v ++ [z]) 1 1 = (Ok v : result bytes).
Proof.
  intros Z V. unfold inner. cbn [List.length]. rewrite app_length. cbn [List.length]. replace (List.length v + 1) with (S (List.length v)) by lia.
  change (S (S (List.length v)) <? 1) with false. cbv iota. unfold slice. replace (S (S (List.length v)) - 1) with (S (List.length v)) by lia.
  change (1 <=? S (List.length v)) with true. cbn [List.length]. rewrite app_length. cbn [List.length].
  assert ((S (List.length v) <=? S (List.length v + 1)) = true) as -> by (apply Nat.leb_le; lia).
  assert (is_boundary (a :: v ++ [z]) 1 = true) as ->.
  { unfold is_boundary. cbn [nth_error]. destruct v as [|c v]; cbn [app nth_error]; [now rewrite Z|now rewrite V]. }
  assert (is_boundary (a :: v ++ [z]) (S (List.length v)) = true) as ->.
  { unfold is_boundary. cbn [nth_error]. rewrite nth_error_app2, Nat.sub_diag by lia. cbn [nth_error]. now rewrite Z. }
  cbn [andb]. f_equal. cbn [skipn Nat.sub]. rewrite Nat.sub_0_r, firstn_app, firstn_all, Nat.sub_diag. apply app_nil_r.
Qed.
Lemma take_line_all s : ~ In NL s -> take_line s = s.
Proof.
  induction s as [|c s IH]; intros H; [reflexivity|]. cbn [take_line]. destruct (Ascii.eqb c NL) eqn:E; [apply Ascii.eqb_eq in E as ->; destruct H; now left|].
  f_equal. apply IH. intros I. apply H. now right.
Qed.
Lemma re_named_name n s : name_of n -> ~ In NL s -> forall acc, re_named acc (n ++ "=" :: s) = Some (rev acc ++ n, s).
Proof.
  intros N S. pose proof (name_chars _ N) as C. clear N. induction n as [|c n IH]; intros acc.
  - cbn [app re_named]. change (is_named_sep "=") with true. cbv iota. rewrite take_line_all by exact S. now rewrite app_nil_r.
  - cbn [app re_named]. destruct (C c (or_introl eq_refl)) as (E1 & E2 & E3 & E4 & E5 & _).
    assert (is_named_sep c = false) as ->.
    { unfold is_named_sep, memc. cbn. rewrite (proj2 (Ascii.eqb_neq _ _) E1), (proj2 (Ascii.eqb_neq _ _) E3), (proj2 (Ascii.eqb_neq _ _) E4). reflexivity. }
    rewrite (proj2 (Ascii.eqb_neq _ _) E5), IH; [|intros d D; apply C; now right]. cbn [rev]. now rewrite <- app_assoc.
Qed.
Lemma named_pair p : okp p -> key_values_from_named_attribute (pair_text p) = Ok (Some (fst p, split_on (fun c => Ascii.eqb c SP) (snd p))).
Proof.
  intros [N V]. unfold key_values_from_named_attribute, pair_text. cbn [app]. rewrite re_named_name; [|exact N|].
  - cbn [rev app]. change (starts_with [DQ] (DQ :: snd p ++ [DQ])) with true. cbv iota. rewrite inner_mid; [reflexivity|reflexivity|apply V].
  - intros [I|I]; [discriminate|]. apply in_app_or in I as [I|[I|[]]]; [|discriminate]. apply (value_chars _ V) in I. tauto.
Qed.
Definition add_pair (m : metadata) (p : bytes * bytes) : metadata :=
  if is_role p then set_m_roles m (m_roles m ++ split_on (fun c => Ascii.eqb c SP) (snd p)) else m_insert (fst p) (snd p) m.
Lemma process_pairs l : Forall okp l -> forall e m idx, Forall (fun x => x = []) e ->
  process_from m idx (map pair_text l ++ e) = Ok (fold_left add_pair l m).
Proof.
  induction 1 as [|p l P L IH]; intros e m idx E.
  - cbn [map app fold_left]. revert idx. induction E as [|x e -> E IHe]; intros idx; [reflexivity|]. cbn [process_from].
    assert (process_one m idx [] = Ok m) as -> by (destruct idx; reflexivity). apply IHe.
  - cbn [map app fold_left process_from]. unfold process_one. rewrite (named_pair _ P). cbn [bind].
    assert ((if beqb (fst p) (bs "role") then Ok (set_m_roles m (m_roles m ++ split_on (fun c => Ascii.eqb c SP) (snd p)))
      else Ok (m_insert (fst p) (join [SP] (split_on (fun c => Ascii.eqb c SP) (snd p))) m)) = (Ok (add_pair m p) : result metadata)) as ->.
    { unfold add_pair, is_role. destruct (split_words (snd p)) as (_ & S & _). rewrite join_spaced, S. now destruct (beqb _ _). }
    cbn [bind]. now apply IH.
Qed.
Lemma minsert_fresh {V} k (v : V) m : ~ In k (map fst m) -> minsert k v m = m ++ [(k, v)].
Proof.
  induction m as [|[k' v'] m IH]; intros H; [reflexivity|]. cbn in *. destruct (beqb k k') eqn:E; [apply beqb_eq in E as ->; tauto|]. f_equal. apply IH. tauto.
Qed.
Lemma folded l : NoDup (map fst l) -> forall m, (forall p, In p l -> ~ In (fst p) (map fst (m_attrs m))) ->
  let m' := fold_left add_pair l m in
  m_attrs m' = m_attrs m ++ filter (fun p => negb (is_role p)) l /\ m_options m' = m_options m /\ m_type m' = m_type m /\ m_loc m' = m_loc m /\ m_inline m' = m_inline m
  /\ match find is_role l with
     | Some p => m_roles m' = m_roles m ++ split_on (fun c => Ascii.eqb c SP) (snd p)
     | None => m_roles m' = m_roles m
     end.
Proof.
  induction l as [|p l IH]; intros N m D; [cbn; now rewrite app_nil_r|]. inversion N as [|? ? N1 N2]. subst. cbn [fold_left filter find]. cbv zeta.
  destruct (is_role p) eqn:R; cbn [negb]; [assert (add_pair m p = set_m_roles m (m_roles m ++ split_on (fun c => Ascii.eqb c SP) (snd p))) as -> by (unfold add_pair; now rewrite R)
    |assert (add_pair m p = m_insert (fst p) (snd p) m) as -> by (unfold add_pair; now rewrite R)].
  - assert (find is_role l = None) as F.
    { destruct (find is_role l) as [q|] eqn:F; [|reflexivity]. apply find_some in F as [I Q]. exfalso. apply N1. unfold is_role in *. apply beqb_eq in Q, R. rewrite R, <- Q. now apply in_map. }
    destruct (IH N2 (set_m_roles m (m_roles m ++ split_on (fun c => Ascii.eqb c SP) (snd p)))) as (A & O & T & L & I & W); [intros q Q; apply D; now right|].
    rewrite F in W. now rewrite A, O, T, L, I, W.
  - destruct (IH N2 (m_insert (fst p) (snd p) m)) as (A & O & T & L & I & W).
    + intros q Q H. cbn in H. rewrite minsert_fresh in H by (apply D; now left). rewrite map_app in H. apply in_app_or in H as [H|[H|[]]]; [apply (D q); [now right|exact H]|].
      cbn in H. apply N1. rewrite H. now apply in_map.
    + rewrite A, O, T, L, I. cbn. rewrite minsert_fresh by (apply D; now left). rewrite <- app_assoc. destruct p. repeat split; auto.
Qed.
Lemma lexeme_inner s : (match s with c :: _ => is_cont c = false | [] => True end) -> inner (bs "[" ++ s ++ bs "]") 1 1 = (Ok s : result bytes).
Proof. intros S. now apply inner_mid. Qed.
Lemma attribute_list_start l : Forall okp l -> match attribute_list l with c :: _ => is_cont c = false | [] => True end.
Proof.
  intros [|[n v] r [N _] F]; [exact I|]. pose proof (name_chars _ N) as C. destruct n as [|c n]; [destruct N as [[] _]; reflexivity|].
  assert (is_cont c = false) as K by (apply (C c); now left). destruct r; exact K.
Qed.
Lemma named_attributes w l t : Forall okp l -> apart l -> NoDup (map fst l) -> ttype t = TElementAttributes -> lexeme t = bs "[" ++ attribute_list l ++ bs "]" ->
  exists m, new_block_meta_from_token w t = Ok m /\ names_to_values l m.
Proof.
  intros OK A N T L. unfold new_block_meta_from_token. rewrite T, L. rewrite lexeme_inner by now apply attribute_list_start. cbn [bind].
  destruct (extracted w l OK A) as (e & -> & E). unfold process_attributes. rewrite process_pairs by assumption. eexists. split; [reflexivity|].
  destruct (folded l N (mkMeta [] [] [] false None (token_locations t))) as (A1 & O & Ty & _ & _ & W); [intros p _ []|]. cbn in A1, O, Ty, W. unfold names_to_values. rewrite A1, O, Ty.
  repeat split; auto. destruct (find is_role l); [|exact W]. rewrite W. apply split_words.
Qed.

(** ** C28 *)
Lemma unchars_dq x r : ~ In DQ (unchars (x :: r)) -> ~ In DQ x /\ ~ In DQ (unchars r).
Proof. unfold unchars. cbn. intros H. split; intros I; apply H, in_or_app; auto. Qed.
Lemma no_quoted w f : forall word l, ~ In DQ (unchars l) -> re_named_quoted w f word l = [].
Proof.
  induction f as [|f IH]; intros word l H; [reflexivity|]. destruct l as [|ch r]; [reflexivity|]. apply unchars_dq in H as [H1 H2].
  cbn [re_named_quoted].
  assert ((if char_word w ch then re_named_quoted w f (ch :: word) r else re_named_quoted w f [] r) = []) as E by (destruct (char_word w ch); now apply IH).
  destruct ch as [|c ch]; [exact E|]. destruct ch; [|destruct c as [[] [] [] [] [] [] [] []]; exact E]. destruct r as [|x r']; [destruct c as [[] [] [] [] [] [] [] []]; exact E|].
  destruct x as [|q x]; [destruct c as [[] [] [] [] [] [] [] []]; exact E|]. destruct x; [|destruct c as [[] [] [] [] [] [] [] []]; exact E].
  apply unchars_dq in H2 as [H2 H3].
  assert (Ascii.eqb q DQ = false) as Q by (apply Ascii.eqb_neq; intros ->; apply H2; now left).
  rewrite Q. assert (re_named_quoted w f [] ([q] :: r') = []) as E2.
  { apply IH. unfold unchars in *. cbn. intros [I|I]; [apply H2; now left|auto]. }
  destruct c as [[] [] [] [] [] [] [] []]; solve [exact E|exact E2].
Qed.
Lemma re_named_dq s : ~ In DQ s -> forall acc n v, re_named acc s = Some (n, v) -> starts_with [DQ] v = false.
Proof.
  induction s as [|c s IH]; intros H acc n v; [discriminate|]. cbn [re_named]. assert (~ In DQ s) as H' by (intros I; apply H; now right). destruct (is_named_sep c).
  - intros [= <- <-]. destruct s as [|d s]; [reflexivity|]. cbn [take_line]. destruct (Ascii.eqb d NL); [reflexivity|]. cbn [starts_with].
    rewrite (proj2 (Ascii.eqb_neq DQ d)); [reflexivity|]. intros E0. apply H'. left. now symmetry.
  - destruct (Ascii.eqb c NL); intros E; eapply IH; eauto.
Qed.
Lemma kv_ok a : ~ In DQ a -> exists kv, key_values_from_named_attribute a = Ok kv.
Proof.
  intros H. unfold key_values_from_named_attribute. destruct (re_named [] a) as [[n v]|] eqn:E; [|eauto]. rewrite (re_named_dq _ H _ _ _ E). cbn [bind]. eauto.
Qed.
Lemma no_dq_start a : ~ In DQ a -> starts_with [DQ] a = false.
Proof.
  intros H. destruct a as [|c a]; [reflexivity|]. cbn [starts_with]. rewrite (proj2 (Ascii.eqb_neq DQ c)); [reflexivity|]. intros E0. apply H. left. now symmetry.
Qed.
(** the type that is declared by the first field *)
Definition calm (m : metadata) (idx : nat) : Prop := (m_type m = Some AQuote \/ m_type m = Some AVerse) -> idx <= 2.
Lemma pa_ok m idx a : ~ In DQ a -> 1 <= idx -> m_type m <> Some ALines -> calm m idx -> exists m', process_attribute m idx a = Ok m' /\ m_type m' = m_type m.
Proof.
  intros H I L C. unfold process_attribute.
  assert (forall m0 : metadata, exists m', (let* a0 := if starts_with [DQ] a then inner a 1 1 else Ok a in Ok (m_insert (bs "positional_" ++ dec (idx + 1)) a0 m0)) = (Ok m' : result metadata) /\ m_type m' = m_type m0) as P.
  { intros m0. rewrite (no_dq_start a H).
    cbn [bind]. eauto. }
  destruct (m_type m) as [[]|] eqn:T; try congruence.
  - destruct (P m) as (m' & -> & E). rewrite T in E. eauto.
  - unfold calm in C. specialize (C (or_introl T)). destruct (idx =? 1) eqn:E1; [eauto|]. destruct (idx =? 2) eqn:E2; [eauto|].
    apply Nat.eqb_neq in E1, E2. lia.
  - unfold calm in C. specialize (C (or_intror T)). destruct (idx =? 1) eqn:E1; [eauto|]. destruct (idx =? 2) eqn:E2; [eauto|].
    apply Nat.eqb_neq in E1, E2. lia.
  - destruct (idx =? 1); eauto.
  - destruct (P m) as (m' & -> & E). rewrite T in E. eauto.
Qed.
Lemma po_ok m idx a : ~ In DQ a -> 1 <= idx -> m_type m <> Some ALines -> calm m idx -> exists m', process_one m idx a = Ok m' /\ m_type m' = m_type m.
Proof.
  intros H I L C. unfold process_one. destruct (kv_ok a H) as (kv & ->). cbn [bind]. destruct kv as [[k v]|].
  - destruct (beqb k _); eauto.
  - destruct idx; [lia|]. cbn [Nat.eqb andb]. destruct a; [eauto|]. now apply pa_ok.
Qed.
Lemma pf_ok l : Forall (fun a => ~ In DQ a) l -> forall m idx, 1 <= idx -> m_type m <> Some ALines -> ((m_type m = Some AQuote \/ m_type m = Some AVerse) -> idx + List.length l <= 3) ->
  exists m', process_from m idx l = Ok m'.
Proof.
  induction 1 as [|a l A _ IH]; intros m idx I L C; [cbn; eauto|]. cbn [process_from List.length] in *.
  destruct (po_ok m idx a A I L) as (m' & -> & T); [intros H; specialize (C H); lia|]. cbn [bind]. apply IH; [lia|now rewrite T|]. rewrite T. intros H. specialize (C H). lia.
Qed.
Lemma split_in p s x : In x (split_on p s) -> incl x s.
Proof.
  revert x. induction s as [|c s IH]; intros x; cbn; [intros [<-|[]]; intros y []|]. destruct (p c).
  - intros [<-|I]; [intros y []|]. intros y Y. right. now apply (IH _ I).
  - destruct (split_on p s) as [|w ws]; [intros [<-|[]] y Y; left; destruct Y as [->|[]]; reflexivity|].
    intros [<-|I] y Y; [destruct Y as [->|Y]; [now left|right; apply (IH w); auto; now left]|right; apply (IH x); auto; now right].
Qed.
Lemma first_ok m a : ~ In DQ a -> ascii_text a -> m_type m = None -> exists m', process_one m 0 a = Ok m' /\ m_type m' <> Some ALines
  /\ (m_type m' = Some AQuote -> a = bs "quote") /\ (m_type m' = Some AVerse -> a = bs "verse").
Proof.
  intros H A T. unfold process_one. destruct (kv_ok a H) as (kv & ->). cbn [bind]. destruct kv as [[k v]|].
  { destruct (beqb k _); eexists; (split; [reflexivity|]); cbn; rewrite T; repeat split; congruence. }
  assert (forall b, a = b -> exists m', process_attribute m 0 b = Ok m' /\ m_type m' <> Some ALines
  /\ (m_type m' = Some AQuote -> b = bs "quote") /\ (m_type m' = Some AVerse -> b = bs "verse")) as P.
  { intros b <-. unfold process_attribute. rewrite T. rewrite (no_dq_start a H).
    cbn [bind]. eexists. split; [reflexivity|]. cbn. rewrite T. repeat split; congruence. }
  destruct a as [|c1 a]; [eexists; split; [reflexivity|]; rewrite T; repeat split; congruence|]. destruct a as [|c2 a]; [now apply P|].
  change ((0 =? 0) && (2 <=? List.length (c1 :: c2 :: a))) with true. cbv iota.
  assert (slice (c1 :: c2 :: a) 0 2 = (Ok [c1; c2] : result bytes)) as ->.
  { unfold slice. change (0 <=? 2) with true. change (2 <=? List.length (c1 :: c2 :: a)) with true. change (is_boundary (c1 :: c2 :: a) 0) with true.
    assert (is_boundary (c1 :: c2 :: a) 2 = true) as ->; [|reflexivity]. unfold is_boundary. cbn [nth_error]. destruct a as [|c3 a]; [reflexivity|]. cbn [nth_error].
    inversion A as [|? ? _ A2]. inversion A2 as [|? ? _ A3]. inversion A3 as [|? ? X _]. subst. revert X. destruct c3 as [[] [] [] [] [] [] [] []]; vm_compute; congruence. }
  cbn [bind]. destruct (memb [c1; c2] _); [|now apply P]. eexists. split; [reflexivity|]. cbn [m_type set_m_type]. unfold attribute_type_from_str.
  destruct (beqb _ (bs "role")); [repeat split; congruence|]. destruct (beqb _ (bs "quote")) eqn:Q; [apply beqb_eq in Q; repeat split; congruence|].
  destruct (beqb _ (bs "verse")) eqn:V; [apply beqb_eq in V; repeat split; congruence|]. destruct (beqb _ (bs "source")); repeat split; congruence.
Qed.
Lemma accepted w s t : ttype t = TElementAttributes -> lexeme t = bs "[" ++ s ++ bs "]" -> (match s with c :: _ => is_cont c = false | [] => True end) ->
  ~ In DQ s -> ascii_text (hd [] (fields s)) -> (List.length (fields s) <= 3 \/ ~ In (hd [] (fields s)) [bs "quote"; bs "verse"]) ->
  exists m, new_block_meta_from_token w t = Ok m.
Proof.
  intros T L S D A Q. unfold new_block_meta_from_token. rewrite T, L, lexeme_inner by exact S. cbn [bind]. unfold extract_attributes.
  rewrite no_quoted by now rewrite unchars_chars. cbn [app fold_left]. unfold process_attributes. fold (fields s).
  assert (Forall (fun a => ~ In DQ a) (fields s)) as F.
  { apply Forall_forall. intros x X I. apply D. now apply (split_in _ _ _ X). }
  destruct (fields s) as [|a l]; [cbn; eauto|]. inversion F as [|? ? F1 F2]. subst. cbn [hd] in *. cbn [process_from].
  destruct (first_ok (mkMeta [] [] [] false None (token_locations t)) a F1 A eq_refl) as (m & -> & N & Q1 & Q2). cbn [bind]. apply pf_ok; auto.
  cbn [List.length] in Q. intros H. destruct Q as [Q|Q]; [lia|]. exfalso. apply Q. destruct H as [H|H]; [left; symmetry; auto|right; left; symmetry; auto].
Qed.

(** ** C60 *)
Lemma folded_get k : k <> bs "role" -> forall l m, mget k (m_attrs (fold_left add_pair l m)) =
  match find (fun p => beqb k (fst p)) (rev l) with Some p => Some (snd p) | None => mget k (m_attrs m) end.
Proof.
  intros R l. induction l as [|p l IH] using rev_ind; intros m; [reflexivity|]. rewrite fold_left_app, rev_unit. cbn [fold_left find].
  destruct (beqb k (fst p)) eqn:E.
  - unfold add_pair, is_role. apply beqb_eq in E. rewrite <- E. destruct (beqb k (bs "role")) eqn:B; [apply beqb_eq in B; contradiction|].
    cbn. now rewrite minsert_mget, beqb_refl.
  - rewrite <- IH. unfold add_pair at 1. destruct (is_role p); [reflexivity|]. cbn. now rewrite minsert_mget, E.
Qed.
Lemma later_in_list w l t m : Forall okp l -> apart l -> ttype t = TElementAttributes -> lexeme t = bs "[" ++ attribute_list l ++ bs "]" ->
  exists m', add_metadata_from_token w m t = Ok m' /\ forall k, k <> bs "role" ->
    (forall before v after, l = before ++ (k, v) :: after -> ~ In k (map fst after) -> mget k (m_attrs m') = Some v)
    /\ (~ In k (map fst l) -> mget k (m_attrs m') = mget k (m_attrs m)).
Proof.
  intros OK A T L. unfold add_metadata_from_token. rewrite T, L. rewrite lexeme_inner by now apply attribute_list_start. cbn [bind].
  destruct (extracted w l OK A) as (e & -> & E). unfold process_attributes. rewrite process_pairs by assumption. eexists. split; [reflexivity|].
  assert (forall k x, ~ In k (map fst x) -> forall rest, find (fun p : bytes * bytes => beqb k (fst p)) (rev x ++ rest) = find (fun p => beqb k (fst p)) rest) as F.
  { intros k x. induction x as [|p x IH] using rev_ind; intros N rest; [reflexivity|]. rewrite rev_unit. cbn [app find].
    rewrite map_app, in_app_iff in N. destruct (beqb k (fst p)) eqn:B; [apply beqb_eq in B; subst; exfalso; apply N; right; now left|]. apply IH. tauto. }
  intros k R. split.
  - intros b v a -> N. rewrite folded_get by exact R. rewrite rev_app_distr. cbn [rev]. rewrite <- app_assoc. rewrite F by exact N. cbn [app find fst]. now rewrite beqb_refl.
  - intros N. rewrite folded_get by exact R. rewrite <- (app_nil_r (rev l)), F by exact N. reflexivity.
Qed.
Lemma later_entry w t name value p : simple_line (Entry name value) -> token_text t = spell (Entry name value) ->
  exists p', parse_attribute w t p = Ok p' /\ mget name (p_attrs p') = Some value /\ forall k, k <> name -> mget k (p_attrs p') = mget k (p_attrs p).
Proof.
  intros H T. destruct (entry_parts name value H) as (comps & E & V). destruct H as (_ & Nl & _). unfold parse_attribute. rewrite T.
  change (spell (Entry name value)) with (":" :: name ++ ":" :: body_of value). rewrite E, V.
  destruct (beqb name (bs "leveloffset")) eqn:B; [apply beqb_eq in B; contradiction|]. eexists. split; [reflexivity|]. cbn. split.
  - now rewrite minsert_mget, beqb_refl.
  - intros k K. rewrite minsert_mget. destruct (beqb k name) eqn:X; [apply beqb_eq in X; contradiction|reflexivity].
Qed.
