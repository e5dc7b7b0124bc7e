(** * What the templates give for tables, blocks and documents *)
From Verif Require SpecMeta SpecPage PageProofs ScriptHtml HtmlPage.
From Verif Require Import Base World Location Token Meta Inline Block Asg Json Html SpecJson TreeInd
  SpecScan SpecDoc SpecArticle SpecArticleHtml SpecScript SpecScriptHtml SpecHtmlPage SpecTemplates Tera Templates TeraProofs TemplateProofs.
Local Open Scope char_scope.
Local Open Scope nat_scope.

(** ** Rows *)
Lemma laid_abs k c l : laid_body k c l = laid_body k (Z.of_nat (Z.abs_nat c)) l.
Proof.
  induction l as [|i l IH]; [reflexivity|]. cbn [laid_body]. rewrite IH.
  assert (row_break c i (List.length k) = row_break (Z.of_nat (Z.abs_nat c)) i (List.length k)) as ->; [|reflexivity].
  unfold row_break. destruct (i =? 0); [reflexivity|]. rewrite Nat2Z.inj_abs_nat.
  destruct (Z.eqb_spec c 0) as [->|N]; [reflexivity|]. assert ((Z.abs c =? 0)%Z = false) as -> by (apply Z.eqb_neq; lia).
  do 3 f_equal. destruct (Z.abs_eq_or_opp c) as [-> | ->]; [reflexivity|]. now rewrite Z.rem_opp_r'.
Qed.
Lemma laid_zero k l : existsb (fun i => negb (i =? 0)) l = true -> laid_body k 0 l = Panic.
Proof.
  induction l as [|i l IH]; [discriminate|]. cbn [existsb laid_body]. unfold row_break. destruct (i =? 0); [|reflexivity].
  intros H. cbn [negb orb] in H. cbn [bind]. now rewrite IH.
Qed.
Lemma rows_more r l : l <> [] -> rows_laid (r :: l) = row_laid r ++ line 8 ++ rows_laid l.
Proof. destruct l; [easy|reflexivity]. Qed.
Lemma row_text r : row_laid r = bs "<tr>" ++ line 8 ++ List.concat (map (fun c => tagged "td" [] (inlines_html c) ++ line 8) r) ++ bs "</tr>".
Proof. unfold row_laid, tagged. rewrite <- !app_assoc. reflexivity. Qed.
Lemma laid_rows cols k : 1 <= cols -> forall l idx left, skipn idx (map cell_of k) = l -> ScriptHtml.full cols idx left ->
  exists p, laid_body k (Z.of_nat cols) (seq idx (List.length l)) = Ok p
  /\ bs "<tr>" ++ line 8 ++ p ++ bs "</tr>" = rows_laid (in_rows cols left l).
Proof.
  intros C. induction l as [|c r IH]; intros idx left E F.
  { exists []. split; reflexivity. }
  destruct (ScriptHtml.skipn_nth _ _ _ _ E) as (N & R).
  assert (idx + S (List.length r) = List.length k) as L.
  { assert (idx < List.length (map cell_of k)) by (apply nth_error_Some; congruence).
    apply (f_equal (@List.length _)) in E. rewrite skipn_length, map_length in E. rewrite map_length in H. cbn [List.length] in E. lia. }
  cbn [List.length seq laid_body]. rewrite (nth_error_nth _ _ [] N).
  assert (row_break (Z.of_nat cols) idx (List.length k)
    = Ok (negb (idx =? 0) && (S idx mod cols =? 0) && negb (match r with [] => true | _ => false end))) as ->.
  { unfold row_break. destruct (idx =? 0) eqn:Z0; [reflexivity|]. cbn [negb andb].
    assert ((Z.of_nat cols =? 0)%Z = false) as -> by (apply Z.eqb_neq; lia). f_equal. f_equal.
    - replace (Z.of_nat idx + 1)%Z with (Z.of_nat (S idx)) by lia. rewrite Z.rem_mod_nonneg by lia. rewrite <- Nat2Z.inj_mod by lia. destruct (S idx mod cols) eqn:M; [reflexivity|]. apply Z.eqb_neq. lia.
    - f_equal. destruct r; [apply Nat.eqb_eq; cbn in L; lia|apply Nat.eqb_neq; cbn in L; lia]. }
  cbn [bind].
  destruct (ScriptHtml.full_next _ _ _ C F) as [(N0 & M & Lf & F')|(NM & Lf & F')].
  - destruct (IH (S idx) cols R F') as (p & -> & P). cbn [bind]. eexists. split; [reflexivity|].
    apply Nat.eqb_neq in N0. rewrite N0, M. destruct r as [|d r].
    + cbn [in_rows negb andb rows_laid] in P |- *. rewrite row_text in P |- *. cbn [map List.concat] in *. 
      do 2 apply app_inv_head in P. cbn [app] in P. assert (p = []) as Pn.
      { apply (f_equal (@List.length _)) in P. rewrite app_length in P. destruct p; [reflexivity|cbn in P; lia]. }
      rewrite Pn. rewrite !app_nil_r. cbn [app]. rewrite <- !app_assoc. reflexivity.
    + cbn [negb andb]. rewrite ScriptHtml.in_rows_more. assert (left <=? 1 = true) as -> by now apply Nat.leb_le.
      rewrite rows_more. 2:{ destruct (ScriptHtml.in_rows_some cols cols (d :: r)) as (x & y & ->). discriminate. }
      rewrite <- P, row_text. cbn [map List.concat]. rewrite app_nil_r, <- !app_assoc. reflexivity.
  - destruct (IH (S idx) (left - 1) R F') as (p & -> & P). cbn [bind]. eexists. split; [reflexivity|].
    assert (negb (idx =? 0) && (S idx mod cols =? 0) = false) as -> by (destruct NM as [->| ->]; [reflexivity|apply andb_false_r]).
    cbn [andb]. cbn [app].
    assert (in_rows cols left (c :: r) = match in_rows cols (left - 1) r with [] => [[c]] | x :: y => (c :: x) :: y end) as ->.
    { destruct r as [|d r]; [reflexivity|]. rewrite ScriptHtml.in_rows_more. apply Nat.leb_gt in Lf. now rewrite Lf. }
    destruct (ScriptHtml.in_rows_some cols (left - 1) r) as (x & y & Er). rewrite Er in *.
    assert (exists q, rows_laid (x :: y) = row_laid x ++ q /\ rows_laid ((c :: x) :: y) = row_laid (c :: x) ++ q) as (q & Q1 & Q2).
    { destruct y; [exists []; cbn [rows_laid]; now rewrite !app_nil_r|]. rewrite !rows_more by discriminate. eexists. split; reflexivity. }
    rewrite Q2. rewrite Q1 in P. rewrite row_text in P |- *. rewrite <- !app_assoc in *.
    do 2 apply app_inv_head in P. rewrite P. cbn [map List.concat]. rewrite <- !app_assoc. reflexivity.
Qed.
Lemma laid_all cols k idx left : ScriptHtml.full cols idx left \/ (cols = 0 /\ idx = 0 /\ List.length k <= 1) -> (cols = 0 -> List.length k <= 1 /\ idx = 0) ->
  exists p, laid_body k (Z.of_nat cols) (seq idx (List.length k - idx)) = Ok p
  /\ bs "<tr>" ++ line 8 ++ p ++ bs "</tr>" = rows_laid (in_rows cols left (skipn idx (map cell_of k))).
Proof.
  intros F Z0. destruct (Nat.eq_dec cols 0) as [->|N].
  - destruct (Z0 eq_refl) as (L & ->). destruct k as [|x [|y k]]; [| |cbn in L; lia].
    + exists []. split; reflexivity.
    + cbn [List.length Nat.sub seq laid_body row_break Nat.eqb bind]. eexists. split; [reflexivity|]. cbn [app nth map skipn in_rows rows_laid].
      rewrite row_text. cbn [map List.concat]. rewrite !app_nil_r, <- !app_assoc. reflexivity.
  - destruct F as [F|(E & _)]; [|congruence].
    destruct (laid_rows cols k ltac:(lia) (skipn idx (map cell_of k)) idx left eq_refl F) as (p & E & P).
    rewrite skipn_length, map_length in E. now exists p.
Qed.

(** ** tables.html.tera *)
Section Tables.
Variable w : world.
Variable call : bytes -> bytes -> list (bytes * value) -> result bytes.
Notation nodes := (render_nodes w call).
Lemma options_in e x j m : bound x e = Some (VJ j) -> metas j (Some m) ->
  truth_of w e (EOp (bs "in") (EStr (bs "header")) (EPath x [bs "metadata"; bs "options"])) = Ok (headed (Some m)).
Proof.
  intros B M. assert (value_of w e (EPath x [bs "metadata"; bs "options"]) = Ok (VJ (JArr (map JStr (m_options m))))) as V
    by exact (v_path _ _ _ _ _ j (JArr (map JStr (m_options m))) B (M [bs "options"])).
  change (truth_of w e (EOp (bs "in") (EStr (bs "header")) (EPath x [bs "metadata"; bs "options"]))) with
    (let* b := (let* u := value_of w e (EPath x [bs "metadata"; bs "options"]) in
       match u with VJ (JArr l) => Ok (VB (existsb (fun j => same (VJ (JStr (bs "header"))) (VJ j)) l)) | _ => Panic end) in Ok (truthy b)).
  rewrite V. cbn [bind truthy headed]. f_equal. clear. induction (m_options m) as [|o l IH]; [reflexivity|]. cbn [map existsb]. now rewrite IH.
Qed.
Lemma columns_value e x j m : bound x e = Some (VJ j) -> metas j m ->
  value_of w e (EFilter (EPath x [bs "metadata"; bs "attributes"; bs "cols"]) (bs "int") [])
  = match columns_read w m with Some c => Ok (VZ c) | None => Panic end.
Proof.
  intros B M. pose proof (reach_attr j m M "cols") as R. unfold columns_read. destruct m as [m|].
  - destruct (lookup (bs "cols") (m_attrs m)) as [v|]; cbn [option_map].
    + rewrite (v_filter _ _ _ _ _ (VJ (JStr v)) []); [|exact (v_path _ _ _ _ _ j _ B R)|reflexivity].
      change (apply_filter w (VJ (JStr v)) (bs "int") []) with (Ok (VZ (tera_int w v)) : result value). now rewrite HtmlPage.number_ok.
    + change (value_of w e (EFilter (EPath x [bs "metadata"; bs "attributes"; bs "cols"]) (bs "int") []))
        with (let* v := value_of w e (EPath x [bs "metadata"; bs "attributes"; bs "cols"]) in apply_filter w v (bs "int") []).
      now rewrite (v_path_panic _ _ _ _ _ j B R).
  - change (value_of w e (EFilter (EPath x [bs "metadata"; bs "attributes"; bs "cols"]) (bs "int") []))
      with (let* v := value_of w e (EPath x [bs "metadata"; bs "attributes"; bs "cols"]) in apply_filter w v (bs "int") []).
    now rewrite (v_path_panic _ _ _ _ _ j B R).
Qed.
Lemma range_ok e (a b : Z) x y : value_of w e x = Ok (VZ a) -> value_of w e y = Ok (VZ b) ->
  args_of w e [(bs "start", x); (bs "end", y)] = Ok [(bs "start", VZ a); (bs "end", VZ b)].
Proof. intros X Y. cbn [args_of]. now rewrite X, Y. Qed.
Lemma range_value (a b : Z) : range_of [(bs "start", VZ a); (bs "end", VZ b)]
  = if ((a <? 0) || (b <? a))%Z then Panic else Ok (map (fun n => VZ (Z.of_nat n)) (seq (Z.to_nat a) (Z.to_nat b - Z.to_nat a))).
Proof. reflexivity. Qed.
Lemma concat_nth {A} (f : list A -> bytes) (l : list (list A)) n : n <= List.length l ->
  List.concat (map (fun i => f (nth i l [])) (seq 0 n)) = List.concat (map f (firstn n l)).
Proof.
  intros H. f_equal. revert l H. induction n as [|n IH]; intros [|x l] H; try reflexivity; [cbn in H; lia|].
  cbn [seq map firstn nth]. f_equal. rewrite <- seq_shift, map_map. apply IH. cbn in H. lia.
Qed.
Definition cell_count : expr := EFilter (EPath (bs "block") [bs "blocks"]) (bs "length") [].
Definition from_to (x y : expr) : expr := ECall [] (bs "range") [(bs "start", x); (bs "end", y)].
Section Parts.
Variables (j : json) (k : list block) (c : Z).
Hypothesis R : reach j [bs "blocks"] = Some (JArr (map json_of_block k)).
Hypothesis C : Forall (cell_call call) k.
Hypothesis C0 : no_cell_call call.
Lemma cells_run pre e r s : bound (bs "block") e = Some (VJ j) -> bound (bs "cols") e = Some (VZ c) -> bound (bs "body_start") e = Some (VZ s) ->
  out pre (nodes e (NText (line 8) :: NSet (bs "num_cells") cell_count
                    :: NFor (bs "idx") (from_to (EPath (bs "body_start") []) (EPath (bs "num_cells") [])) td_body :: r))
  = if ((s <? 0) || (Z.of_nat (List.length k) <? s))%Z then Panic
    else let* p := laid_body k c (seq (Z.to_nat s) (List.length k - Z.to_nat s)) in
         out (pre ++ line 8 ++ p) (nodes ((bs "num_cells", VZ (Z.of_nat (List.length k))) :: e) r).
Proof.
  intros B Bc Bs. rewrite out_text.
  assert (value_of w e cell_count = Ok (VZ (Z.of_nat (List.length k)))) as V.
  { unfold cell_count. rewrite (v_filter w e _ _ _ (VJ (JArr (map json_of_block k))) []); [|exact (v_path w e (bs "block") (bs "blocks") [] j _ B R)|reflexivity].
    change (apply_filter w (VJ (JArr (map json_of_block k))) (bs "length") []) with (Ok (VZ (Z.of_nat (List.length (map json_of_block k)))) : result value).
    now rewrite map_length. }
  rewrite (out_set _ _ _ _ _ _ _ _ V). set (e' := (bs "num_cells", _) :: e).
  assert (args_of w e' [(bs "start", EPath (bs "body_start") []); (bs "end", EPath (bs "num_cells") [])]
    = Ok [(bs "start", VZ s); (bs "end", VZ (Z.of_nat (List.length k)))]) as A.
  { apply range_ok; [apply v_name; exact Bs|reflexivity]. }
  pose proof (range_value s (Z.of_nat (List.length k))) as RV. unfold from_to.
  destruct ((s <? 0) || (Z.of_nat (List.length k) <? s))%Z.
  - now rewrite (out_range_panic _ _ _ _ _ _ _ _ _ A RV).
  - rewrite (out_range _ _ _ _ _ _ _ _ _ _ A RV). rewrite Nat2Z.id. rewrite (td_turns w call e' j k c) by (try assumption; reflexivity).
    destruct (laid_body _ _ _); cbn [bind]; try reflexivity. now rewrite <- app_assoc.
Qed.
Lemma heads_run pre e r s : bound (bs "block") e = Some (VJ j) -> bound (bs "body_start") e = Some (VZ s) ->
  out pre (nodes e (NFor (bs "idx") (from_to (EInt 0) (EPath (bs "body_start") [])) head_body :: r))
  = if (s <? 0)%Z then Panic
    else out (pre ++ List.concat (map (fun i => tagged "th" [] (inlines_html (nth i (map cell_of k) [])) ++ line 4) (seq 0 (Z.to_nat s)))) (nodes e r).
Proof.
  intros B Bs. assert (args_of w e [(bs "start", EInt 0); (bs "end", EPath (bs "body_start") [])] = Ok [(bs "start", VZ 0); (bs "end", VZ s)]) as A.
  { apply range_ok; [reflexivity|apply v_name; exact Bs]. }
  pose proof (range_value 0 s) as RV. unfold from_to. cbn [Z.ltb Z.compare orb] in RV.
  destruct (s <? 0)%Z.
  - now rewrite (out_range_panic _ _ _ _ _ _ _ _ _ A RV).
  - rewrite (out_range _ _ _ _ _ _ _ _ _ _ A RV). change (Z.to_nat 0) with 0. rewrite Nat.sub_0_r. rewrite (head_turns w call e j k) by assumption. reflexivity.
Qed.
End Parts.
Lemma table_runs v d t m k loc : Forall (cell_call call) k -> no_cell_call call ->
  out [] (nodes [(bs "block", VJ (json_of_block (Blk (HParent PTable v d t) m k loc)))] table_nodes)
  = if table_can w m (List.length k) then Ok (table_laid w m (map cell_of k)) else Panic.
Proof.
  intros C C0. pose proof (metas_block (HParent PTable v d t) m k loc Logic.I) as M. unfold table_nodes. set (j := json_of_block _) in *.
  assert (reach j [bs "blocks"] = Some (JArr (map json_of_block k))) as R.
  { unfold j; cbn [json_of_block]; destruct v, d; reflexivity. }
  clearbody j.
  pose proof (fun e B => columns_value e (bs "block") j m B M) as CV.
  unfold table_can, table_laid. destruct (columns_read w m) as [c|] eqn:EC.
  2:{ rewrite out_set_panic; [reflexivity|]. exact (CV [(bs "block", VJ j)] eq_refl). }
  destruct m as [m|]; [|discriminate EC]. etransitivity; [eapply out_set; exact (CV [(bs "block", VJ j)] eq_refl)|]. clear CV.
  step. etransitivity; [eapply out_if; eapply (options_in _ (bs "block") j m); [reflexivity|exact M]|].
  destruct (headed (Some m)); cbn [negb orb].
  - cbv iota. cbn [app]. do 5 step.
    etransitivity; [eapply (heads_run j k R C C0 _ _ _ c); reflexivity|].
    destruct (Z.ltb_spec c 0) as [N|P]. { assert ((0 <=? c)%Z = false) as -> by (apply Z.leb_gt; lia). reflexivity. }
    assert ((0 <=? c)%Z = true) as -> by (apply Z.leb_le; lia). cbn [andb]. step.
    etransitivity; [eapply (cells_run j k c R C C0 _ _ _ c); reflexivity|].
    assert ((c <? 0)%Z = false) as -> by (apply Z.ltb_ge; lia). cbn [orb].
    destruct (Z.leb_spec c (Z.of_nat (List.length k))) as [D|D].
    2:{ assert ((Z.of_nat (List.length k) <? c)%Z = true) as -> by (apply Z.ltb_lt; lia). reflexivity. }
    assert ((Z.of_nat (List.length k) <? c)%Z = false) as -> by (apply Z.ltb_ge; lia). cbn [andb].
    assert (Z.to_nat c = Z.abs_nat c) as -> by (symmetry; now apply Zabs2Nat.abs_nat_nonneg).
    rewrite (laid_abs k c). set (cols := Z.abs_nat c). assert (Z.of_nat cols = c) as Ec by (unfold cols; rewrite Nat2Z.inj_abs_nat; lia).
    destruct ((negb (c =? 0)%Z || (List.length k <=? 1))) eqn:O.
    + destruct (laid_all cols k cols cols) as (p & E & P').
      { destruct (Z.eqb_spec c 0) as [->|N]; [right|left].
        - cbn [negb orb] in O. apply Nat.leb_le in O. now repeat split.
        - split; [lia|]. intros _. rewrite Nat.mod_same by lia. lia. }
      { intros H. assert (c = 0)%Z as Z0 by lia. rewrite Z0 in O. cbn [negb orb Z.eqb] in O. apply Nat.leb_le in O. now split. }
      rewrite E. cbn [bind]. step. step. repeat step. rewrite <- P'.
      rewrite concat_nth with (f := fun x => tagged "th" [] (inlines_html x) ++ line 4) by (rewrite map_length; lia).
      apply (f_equal Ok). unfold tagged. do 4 (rewrite <- ?app_assoc; cbn [app]). reflexivity.
    + apply orb_false_iff in O as (O1 & O2). apply negb_false_iff, Z.eqb_eq in O1. apply Nat.leb_gt in O2.
      rewrite Ec, O1. assert (cols = 0) as -> by lia. rewrite laid_zero; [reflexivity|].
      destruct k as [|x [|y k]]; [cbn in O2; lia..|]. reflexivity.
  - cbv iota. do 5 step. etransitivity; [eapply (cells_run j k c R C C0 _ _ _ 0%Z); reflexivity|].
    assert (((0 <? 0) || (Z.of_nat (List.length k) <? 0))%Z = false) as ->. { cbn [orb Z.ltb Z.compare]. apply Z.ltb_ge. lia. }
    cbn [andb]. change (Z.to_nat 0) with 0. rewrite (laid_abs k c). set (cols := Z.abs_nat c).
    destruct ((negb (c =? 0)%Z || (List.length k <=? 1))) eqn:O.
    + destruct (laid_all cols k 0 (Nat.max 2 cols)) as (p & E & P').
      { left. split; [reflexivity|lia]. }
      { intros H. assert (c = 0)%Z as Z0 by lia. rewrite Z0 in O. cbn [negb orb Z.eqb] in O. apply Nat.leb_le in O. now split. }
      rewrite E. cbn [bind]. repeat step. cbn [skipn] in P'. rewrite <- P'. apply (f_equal Ok). unfold tagged. do 4 (rewrite <- ?app_assoc; cbn [app]). reflexivity.
    + apply orb_false_iff in O as (O1 & O2). apply negb_false_iff, Z.eqb_eq in O1. apply Nat.leb_gt in O2.
      assert (Z.of_nat cols = 0%Z) as -> by lia. rewrite laid_zero; [reflexivity|].
      destruct k as [|x [|y k]]; [cbn in O2; lia..|]. reflexivity.
Qed.
End Tables.

(** ** block.html.tera *)
Section Blocks.
Variable w : world.
Variable call : bytes -> bytes -> list (bytes * value) -> result bytes.
Notation nodes := (render_nodes w call).
Definition block_call (b : block) : Prop := forall s,
  call (bs "self") (bs "process_block") [(bs "block", VJ (json_of_block b)); (bs "skip_tag", VB s)]
  = if shown w b then Ok (block_laid w s b) else Panic.
Definition each_block (y : bytes) : list node :=
  [NShow (ECall (bs "self") (bs "process_block") [(bs "block", EPath y []); (bs "skip_tag", EPath (bs "local_skip_tag") [])])].
Lemma block_turns e y s l : beqb (bs "local_skip_tag") y = false -> bound (bs "local_skip_tag") e = Some (VB s) -> Forall block_call l ->
  turns w call e y (each_block y) (map VJ (map json_of_block l))
  = if forallb (shown w) l then Ok (List.concat (map (block_laid w s) l)) else Panic.
Proof.
  intros N B F. induction F as [|b l H F IH]; [reflexivity|]. cbn [map]. rewrite turns_cons, IH. clear IH.
  set (e' := (y, VJ (json_of_block b)) :: e).
  assert (args_of w e' [(bs "block", EPath y []); (bs "skip_tag", EPath (bs "local_skip_tag") [])] = Ok [(bs "block", VJ (json_of_block b)); (bs "skip_tag", VB s)]) as A.
  { cbn [args_of]. rewrite (v_name w _ y (VJ (json_of_block b))), (v_name w _ (bs "local_skip_tag") (VB s)); [reflexivity| |].
    - unfold e'. cbn [bound]. now rewrite N.
    - unfold e'. cbn [bound]. now rewrite ScanLemmas.beqb_refl. }
  assert (nodes e' (each_block y) = let* t := call (bs "self") (bs "process_block") [(bs "block", VJ (json_of_block b)); (bs "skip_tag", VB s)] in Ok (t, e')) as ->.
  { unfold each_block. cbn [render_nodes render_node]. rewrite A. cbn [bind]. destruct (call _ _ _); cbn [bind fst snd]; try reflexivity. now rewrite app_nil_r. }
  rewrite H. cbn [forallb map List.concat]. destruct (shown w b); [|reflexivity]. cbn [bind andb fst]. now destruct (forallb (shown w) l).
Qed.
Lemma s_blocks pre e x y k j s l r : bound x e = Some (VJ j) -> reach j [k] = Some (JArr (map json_of_block l)) ->
  beqb (bs "local_skip_tag") y = false -> bound (bs "local_skip_tag") e = Some (VB s) -> Forall block_call l ->
  out pre (nodes e (NFor y (EPath x [k]) (each_block y) :: r))
  = if forallb (shown w) l then out (pre ++ List.concat (map (block_laid w s) l)) (nodes e r) else Panic.
Proof.
  intros B R N S F. rewrite (out_for _ _ _ _ _ _ (map json_of_block l)); [|reflexivity|exact (v_path _ _ _ _ _ _ _ B R)].
  rewrite (block_turns e y s l N S F). now destruct (forallb (shown w) l).
Qed.
Lemma s_attribution pre e j m r : bound (bs "block") e = Some (VJ j) -> metas j m ->
  out pre (nodes e (NIf [(EPath (bs "block") [bs "metadata"; bs "attributes"; bs "attribution"],
     [NText (bs "<p data-type=""attribution"">"); NShow (EPath (bs "block") [bs "metadata"; bs "attributes"; bs "attribution"]);
      NIf [(EPath (bs "block") [bs "metadata"; bs "attributes"; bs "citation"], [NText (bs ", "); NShow (EPath (bs "block") [bs "metadata"; bs "attributes"; bs "citation"])])] [];
      NText (bs "</p>")])] [] :: r)) = out (pre ++ attribution m) (nodes e r).
Proof.
  intros B M. unfold attribution. destruct (noted "attribution" m) as [|a v] eqn:A.
  - rewrite (out_if _ _ _ _ _ _ _ _ _ false) by (eapply t_attr_no; eassumption). rewrite out_else. now rewrite app_nil_r.
  - rewrite (out_if _ _ _ _ _ _ _ _ _ true) by (eapply t_attr; eassumption). cbn [app]. rewrite out_text.
    erewrite out_show by first [reflexivity | eapply v_attr with (k := "attribution"%string); eassumption].
    destruct (noted "citation" m) as [|c u] eqn:Ci.
    + rewrite (out_if _ _ _ _ _ _ _ _ _ false) by (eapply t_attr_no; eassumption). rewrite out_else. cbn [app]. rewrite out_text. f_equal.
      unfold tagged. rewrite app_nil_r, <- !app_assoc. reflexivity.
    + rewrite (out_if _ _ _ _ _ _ _ _ _ true) by (eapply t_attr; eassumption). cbn [app]. rewrite out_text.
      erewrite out_show by first [reflexivity | eapply v_attr with (k := "citation"%string); eassumption].
      rewrite out_text. f_equal. unfold tagged. do 3 (rewrite <- ?app_assoc; cbn [app]). reflexivity.
Qed.
Definition tag_shown : expr := EOp (bs "and") (EPath (bs "tag") []) (ENot (EPath (bs "skip_tag") [])).
Lemma tag_true e c t s : bound (bs "tag") e = Some (VJ (JStr (c :: t))) -> bound (bs "skip_tag") e = Some (VB s) -> truth_of w e tag_shown = Ok (negb s).
Proof.
  intros T S. unfold tag_shown. rewrite (t_value w e _ (VB (true && negb s))); [reflexivity|reflexivity|]. apply v_and.
  - rewrite t_name, T. reflexivity.
  - rewrite (t_value w e _ (VB (negb s))); [reflexivity|reflexivity|]. apply v_not. rewrite t_name, S. reflexivity.
Qed.
Lemma tag_false e s : bound (bs "tag") e = None -> bound (bs "skip_tag") e = Some (VB s) -> truth_of w e tag_shown = Ok false.
Proof.
  intros T S. unfold tag_shown. rewrite (t_value w e _ (VB (false && negb s))); [reflexivity|reflexivity|]. apply v_and.
  - rewrite t_name, T. reflexivity.
  - rewrite (t_value w e _ (VB (negb s))); [reflexivity|reflexivity|]. apply v_not. rewrite t_name, S. reflexivity.
Qed.
(** what a name is bound to, if anything: a text *)
Definition text_in (x : string) (e : env) (v : bytes) : Prop :=
  bound (bs x) e = match v with [] => None | _ => Some (VJ (JStr v)) end.
Definition when_text (x attr : string) : node :=
  NIf [(EPath (bs x) [], [NText (SP :: bs attr ++ bs "="""); NShow (EPath (bs x) []); NText (bs """")])] [].
Lemma s_when pre e x attr v r : text_in x e v -> out pre (nodes e (when_text x attr :: r)) = out (pre ++ filled attr v) (nodes e r).
Proof.
  intros T. unfold text_in in T. unfold when_text. rewrite (out_if _ _ _ _ _ _ _ _ _ _ (t_name _ _ _)), T. destruct v as [|c v].
  - cbv iota. rewrite out_else. cbn [filled app]. now rewrite app_nil_r.
  - cbn [truthy]. cbv iota. cbn [app]. rewrite out_text. erewrite out_show by first [reflexivity | apply v_name; exact T].
    rewrite out_text. f_equal. unfold filled. do 3 (rewrite <- ?app_assoc; cbn [app]). reflexivity.
Qed.
Lemma s_open pre e j m c t s nm i d r : bound (bs "block") e = Some (VJ j) -> metas j m ->
  bound (bs "tag") e = Some (VJ (JStr (c :: t))) -> bound (bs "skip_tag") e = Some (VB s) ->
  reach j [bs "name"] = Some (JStr nm) -> beqb nm (bs "section") = false ->
  text_in "code_language" e [] -> text_in "id" e i -> text_in "data_type" e d ->
  out pre (nodes e (NIf [(tag_shown,
    [NText (bs "<"); NShow (EPath (bs "tag") []);
     NIf [(EOp (bs "and") (EPath (bs "block") [bs "metadata"; bs "roles"]) (ENot (EOp (bs "==") (EPath (bs "block") [bs "name"]) (EStr (bs "section")))),
           [NText (bs " class="""); NShow (EFilter (EPath (bs "block") [bs "metadata"; bs "roles"]) (bs "join") [(bs "sep", EStr (bs " "))]); NText (bs """")])] [];
     when_text "code_language" "data-code-language"; when_text "id" "id"; when_text "data_type" "data-type"; NText (bs ">")])] [] :: r))
  = out (pre ++ if s then [] else bs "<" ++ (c :: t) ++ class_html m ++ filled "id" i ++ filled "data-type" d ++ bs ">") (nodes e r).
Proof.
  intros B M T S N Ns L I D. rewrite (out_if _ _ _ _ _ _ _ _ _ _ (tag_true _ _ _ _ T S)). destruct s; cbn [negb].
  - cbv iota. rewrite out_else. now rewrite app_nil_r.
  - cbv iota. cbn [app]. rewrite out_text. erewrite out_show by first [reflexivity | apply v_name; exact T].
    rewrite (s_class w call e (bs "block") j m B M).
    + rewrite (s_when _ _ _ _ _ _ L), (s_when _ _ _ _ _ _ I), (s_when _ _ _ _ _ _ D), out_text. f_equal.
      change (filled "data-code-language" []) with (@nil ascii). do 3 (rewrite <- ?app_assoc; cbn [app]). reflexivity.
    + rewrite (t_value w e _ (VB (has_roles m && true))); [cbn [truthy]; now rewrite andb_true_r|reflexivity|]. apply v_and.
      * exact (t_roles w e (bs "block") j m B M).
      * rewrite (t_value w e _ (VB true)); [reflexivity|reflexivity|]. apply v_not with (p := false).
        rewrite (t_value w e _ (VB (beqb nm (bs "section")))); [now rewrite Ns|reflexivity|].
        exact (v_eq w e _ (EStr (bs "section")) _ (VJ (JStr (bs "section"))) (v_path w e (bs "block") (bs "name") [] j _ B N) eq_refl).
Qed.
Lemma s_close pre e c t s r : bound (bs "tag") e = Some (VJ (JStr (c :: t))) -> bound (bs "skip_tag") e = Some (VB s) ->
  out pre (nodes e (NIf [(tag_shown, [NText (bs "</"); NShow (EPath (bs "tag") []); NText (bs ">")])] [] :: r))
  = out (pre ++ if s then [] else bs "</" ++ (c :: t) ++ bs ">") (nodes e r).
Proof.
  intros T S. rewrite (out_if _ _ _ _ _ _ _ _ _ _ (tag_true _ _ _ _ T S)). destruct s; cbn [negb].
  - cbv iota. rewrite out_else. now rewrite app_nil_r.
  - cbv iota. cbn [app]. rewrite out_text. erewrite out_show by first [reflexivity | apply v_name; exact T]. rewrite out_text. f_equal.
    rewrite <- !app_assoc. reflexivity.
Qed.
Lemma s_untagged pre e ns s r : bound (bs "tag") e = None -> bound (bs "skip_tag") e = Some (VB s) ->
  out pre (nodes e (NIf [(tag_shown, ns)] [] :: r)) = out pre (nodes e r).
Proof. intros T S. rewrite (out_if _ _ _ _ _ _ _ _ _ _ (tag_false _ _ T S)). cbv iota. now rewrite out_else. Qed.
End Blocks.
