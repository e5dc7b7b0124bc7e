(** * What the templates give *)
From Verif Require SpecMeta SpecPage PageProofs ScriptHtml.
From Verif Require Import Base World Location Token Meta Inline Block Asg Json Html SpecJson TreeInd
  SpecScan SpecDoc SpecArticle SpecArticleHtml SpecScript SpecScriptHtml SpecHtmlPage SpecTemplates Tera Templates TeraProofs.
Local Open Scope char_scope.
Local Open Scope nat_scope.

(** ** Symbolic execution *)
Ltac attr_key tac := first [tac constr:("id"%string) | tac constr:("language"%string) | tac constr:("positional_1"%string) | tac constr:("attribution"%string) | tac constr:("citation"%string)].
Ltac ev :=
  lazymatch goal with
  | |- value_of _ _ (EStr _) = _ => reflexivity
  | |- value_of _ _ (EInt _) = _ => reflexivity
  | |- value_of _ _ (EBool _) = _ => reflexivity
  | |- value_of _ _ (EPath _ []) = _ => eapply v_name; reflexivity
  | |- value_of _ _ (EPath _ [_; _; _]) = _ =>
      attr_key ltac:(fun key => eapply v_attr with (k := key); [reflexivity|eassumption|eassumption])
  | |- value_of _ _ (EPath _ (_ :: _)) = _ => eapply v_path; [reflexivity|eassumption]
  | |- value_of _ _ (ENot _) = _ => eapply v_not; tv
  | |- value_of _ _ (EOp _ _ (EList _)) = _ => eapply v_in; [ev|lazy; reflexivity]
  | |- value_of _ _ (EOp _ _ _) = _ =>
      first [eapply v_eq; [ev|ev] | eapply v_neq; [ev|ev] | eapply v_cat; [ev|ev|reflexivity|reflexivity]
            | eapply v_and; [tv|tv] | eapply v_or; [tv|tv]]
  end
with tv :=
  lazymatch goal with
  | |- truth_of _ _ (EPath _ []) = _ => apply t_name
  | |- truth_of _ _ (EPath _ [_; _; _]) = _ => attr_key ltac:(fun key => first [eapply t_attr_no with (k := key); [reflexivity|eassumption|eassumption] | eapply t_attr with (k := key); [reflexivity|eassumption|eassumption]])
  | |- truth_of _ _ (EPath _ [_; _]) = _ => eapply t_roles; [reflexivity|eassumption]
  | |- truth_of _ _ (EPath _ (_ :: _)) = _ => first [eapply t_some; [reflexivity|eassumption] | eapply t_none; [reflexivity|eassumption]]
  | |- truth_of _ _ _ = _ => eapply t_value; [reflexivity|ev]
  end.
Ltac cond :=
  lazymatch goal with
  | |- out _ (render_nodes ?w _ ?e (NIf ((?c, _) :: _) _ :: _)) = _ =>
      let T := fresh "T" in
      eassert (truth_of w e c = Ok _) as T by tv;
      lazymatch type of T with
      | _ = Ok ?b => let b' := eval lazy in b in
          lazymatch b' with
          | true => rewrite (out_if _ _ _ _ _ _ _ _ _ true T); cbv iota; cbn [app]
          | false => rewrite (out_if _ _ _ _ _ _ _ _ _ false T); cbv iota
          end
      end; clear T
  end.
Ltac roles_known :=
  first [ eapply t_roles; [reflexivity|eassumption]
        | etransitivity; [tv|]; apply (f_equal Ok); cbn [truthy]; apply andb_true_r ].
Ltac step :=
  lazymatch goal with
  | |- out _ (render_nodes _ _ _ []) = _ => rewrite out_nil
  | |- out _ (render_nodes _ _ _ (NText _ :: _)) = _ => rewrite out_text
  | |- out _ (render_nodes _ _ _ (NSet _ _ :: _)) = _ => etransitivity; [eapply out_set; ev|]
  | |- out _ (render_nodes _ _ _ (NIf [] _ :: _)) = _ => rewrite out_else; cbn [app]
  | |- out _ (render_nodes _ _ _ (NIf [(_, [NText _; NShow (EFilter _ _ _); NText _])] [] :: _)) = _ =>
      etransitivity; [eapply s_class; [reflexivity|eassumption|roles_known]|]
  | |- out _ (render_nodes _ _ _ (NIf _ _ :: _)) = _ => cond
  | |- out _ (render_nodes _ _ _ (NShow (ECall _ _ _) :: _)) = _ => fail
  | |- out _ (render_nodes _ _ _ (NShow _ :: _)) = _ => etransitivity; [eapply out_show; [reflexivity|ev|reflexivity]|]
  end.

Section Runs.
Variable w : world.
Variable call : bytes -> bytes -> list (bytes * value) -> result bytes.
Notation nodes := (render_nodes w call).

(** ** Loops over inlines *)
Lemma s_inlines pre e x y k j sp f l r : bound x e = Some (VJ j) -> reach j [k] = Some (JArr (map json_of_inline l)) ->
  Forall (fun i => call sp f [(bs "inline", VJ (json_of_inline i))] = Ok (inline_html i)) l ->
  out pre (nodes e (NFor y (EPath x [k]) [NShow (ECall sp f [(bs "inline", EPath y [])])] :: r)) = out (pre ++ inlines_html l) (nodes e r).
Proof.
  intros B R F. rewrite (out_for _ _ _ _ _ _ (map json_of_inline l)); [|reflexivity|exact (v_path _ _ _ _ _ _ _ B R)].
  assert (turns w call e y [NShow (ECall sp f [(bs "inline", EPath y [])])] (map VJ (map json_of_inline l)) = Ok (inlines_html l)) as ->; [|reflexivity].
  clear -F. induction F as [|i l H F IH]; [reflexivity|]. cbn [map]. rewrite turns_cons, IH.
  assert (nodes ((y, VJ (json_of_inline i)) :: e) [NShow (ECall sp f [(bs "inline", EPath y [])])] = Ok (inline_html i, (y, VJ (json_of_inline i)) :: e)) as ->; [|reflexivity].
  assert (args_of w ((y, VJ (json_of_inline i)) :: e) [(bs "inline", EPath y [])] = Ok [(bs "inline", VJ (json_of_inline i))]) as A.
  { cbn [args_of]. rewrite (v_name w _ y (VJ (json_of_inline i))); [reflexivity|]. cbn [bound]. now rewrite ScanLemmas.beqb_refl. }
  cbn [render_nodes render_node]. rewrite A. cbn [bind]. rewrite H. cbn [bind fst snd]. now rewrite app_nil_r.
Qed.

(** ** inline.html.tera *)
Definition inline_call (sp : string) (i : inline) : Prop :=
  call (bs sp) (bs "process_inline") [(bs "inline", VJ (json_of_inline i))] = Ok (inline_html i).
Lemma metas_inline i : metas (json_of_inline i) match i with ISpan _ _ _ m _ _ | IRef _ _ _ m _ => m | _ => None end.
Proof. intros ks. destruct i as [v f l m loc o|v t l m loc|n ni v loc|loc]; try destruct m; reflexivity. Qed.
Definition inside (i : inline) : list inline := match i with ISpan _ _ l _ _ _ | IRef _ _ l _ _ => l | _ => [] end.
Lemma inline_runs i : Forall (inline_call "self") (inside i) ->
  out [] (nodes [(bs "inline", VJ (json_of_inline i))] inline_nodes) = Ok (inline_html i).
Proof.
  intros C. pose proof (metas_inline i) as M. unfold inline_nodes.
  destruct i as [v f l m loc o|v t l m loc|n ni v loc|loc]; cbn [inside] in C.
  - set (j := json_of_inline (ISpan v f l m loc o)) in *.
    assert (reach j [bs "name"] = Some (jstr "span")) as F1 by reflexivity.
    assert (reach j [bs "variant"] = Some (JStr (span_variant_name v))) as F2 by reflexivity.
    assert (reach j [bs "inlines"] = Some (JArr (map json_of_inline l))) as F3 by reflexivity.
    clearbody j.
    assert (inline_html (ISpan v f l m loc o) = bs "<" ++ bs (span_name v) ++ (class_html m ++ match v with SFootnote => bs " data-type=""footnote""" | _ => [] end)
      ++ bs ">" ++ inlines_html l ++ bs "</" ++ bs (span_name v) ++ bs ">") as -> by reflexivity.
    destruct v; cbn [span_variant_name] in F2; destruct l as [|x l]; repeat step;
      try (etransitivity; [eapply s_inlines; [reflexivity|eassumption|exact C]|]; repeat step);
      apply (f_equal Ok); cbn [bs list_ascii_of_string span_name app]; rewrite <- ?app_assoc; cbn [app]; rewrite <- ?app_assoc; reflexivity.
  - set (j := json_of_inline (IRef v t l m loc)) in *.
    assert (reach j [bs "name"] = Some (jstr "ref")) as F1 by reflexivity.
    assert (reach j [bs "variant"] = Some (JStr (ref_variant_name v))) as F2 by reflexivity.
    assert (reach j [bs "target"] = Some (JStr t)) as F3 by reflexivity.
    assert (reach j [bs "inlines"] = Some (JArr (map json_of_inline l))) as F4 by reflexivity.
    clearbody j. destruct v; cbn [ref_variant_name] in F2; cbn [inline_html]; fold (inlines_html l); destruct l as [|x l]; repeat step;
      try (etransitivity; [eapply s_inlines; [reflexivity|eassumption|exact C]|]; repeat step);
      apply (f_equal Ok); unfold tagged; cbn [bs list_ascii_of_string app]; rewrite <- ?app_assoc; cbn [app]; rewrite <- ?app_assoc; reflexivity.
  - set (j := json_of_inline (ILit n ni v loc)) in *.
    assert (reach j [bs "name"] = Some (JStr (literal_name_name n))) as F1 by reflexivity.
    assert (reach j [bs "variant"] = None) as F2 by reflexivity.
    assert (reach j [bs "value"] = Some (JStr v)) as F3 by reflexivity.
    assert (reach j [bs "inlines"] = None) as F4 by reflexivity.
    clearbody j. destruct n; cbn [literal_name_name] in F1; destruct v as [|c v]; repeat step; reflexivity.
  - set (j := json_of_inline (IBreak loc)) in *.
    assert (reach j [bs "name"] = Some (jstr "linebreak")) as F1 by reflexivity.
    clearbody j. repeat step. reflexivity.
Qed.

(** ** leafblocks.html.tera *)
Lemma metas_block h m k loc : match h with HBreak _ => False | _ => True end -> metas (json_of_block (Blk h m k loc)) m.
Proof.
  intros H ks. destruct h as [id t n|v|mk p| |ts p|v|t c|n f d l|n v d t|l]; try contradiction; cbn [json_of_block];
    try destruct v; try destruct f; try destruct d; try destruct id; try destruct t; try destruct p; try destruct c; destruct k, m; reflexivity.
Qed.
Ltac finish := apply (f_equal Ok); unfold tagged; cbn [filled bs list_ascii_of_string app]; rewrite <- ?app_assoc; cbn [app]; rewrite <- ?app_assoc; try reflexivity.
Ltac loop := etransitivity; [eapply s_inlines; [reflexivity|eassumption|eassumption]|].
Lemma leaf_runs n f d l m k loc : Forall (inline_call "inline_macros") l ->
  out [] (nodes [(bs "block", VJ (json_of_block (Blk (HLeaf n f d l) m k loc)))] leaf_nodes) = Ok (leaf_shown n m l).
Proof.
  intros C. pose proof (metas_block (HLeaf n f d l) m k loc Logic.I) as M. unfold leaf_nodes. set (j := json_of_block _) in *.
  assert (reach j [bs "name"] = Some (JStr (leaf_name_name n))) as F1 by reflexivity.
  assert (reach j [bs "inlines"] = Some (JArr (map json_of_inline l))) as F2 by (unfold j; cbn [json_of_block]; destruct f, d; reflexivity).
  clearbody j. destruct (noted "language" m) as [|c v] eqn:N;
    destruct n; cbn [leaf_name_name] in F1; cbn [leaf_shown]; destruct l as [|x l]; repeat step; try (loop; repeat step); rewrite ?N; finish.
Qed.

(** ** tables.html.tera *)
Lemma reach_inlines b : reach (json_of_block b) [bs "inlines"] = match b with Blk (HCell l | HLeaf _ _ _ l) _ _ _ => Some (JArr (map json_of_inline l)) | _ => None end.
Proof.
  destruct b as [h m k loc]. destruct h as [id t n|v|mk p| |ts p|v|t c|n f d l|n v d t|l]; cbn [json_of_block];
    try destruct v; try destruct f; try destruct d; try destruct id; try destruct t; try destruct p; try destruct c; destruct k, m; reflexivity.
Qed.
Lemma cell_runs tag b : Forall (inline_call "inline_macros") (cell_of b) ->
  out [] (nodes [(bs "cell", VJ (json_of_block b)); (bs "tag", VJ (JStr (bs tag)))] cell_nodes) = Ok (tagged tag [] (inlines_html (cell_of b))).
Proof.
  intros C. pose proof (reach_inlines b) as R. unfold cell_nodes. unfold tagged. set (t := bs tag). clearbody t.
  assert (reach (json_of_block b) [bs "inlines"] = None /\ cell_of b = []
    \/ reach (json_of_block b) [bs "inlines"] = Some (JArr (map json_of_inline (cell_of b)))) as D.
  { rewrite R. destruct b as [[] m k loc]; auto. }
  set (j := json_of_block b) in *. clearbody j. clear R. set (l := cell_of b) in *. clearbody l.
  destruct D as [(R & ->)|R]; [|destruct l as [|x l]]; repeat step; try (loop; repeat step); finish.
Qed.
Lemma cell_none_runs tag : out [] (nodes [(bs "cell", VJ (JStr [])); (bs "tag", VJ (JStr (bs tag)))] cell_nodes) = Ok (tagged tag [] []).
Proof.
  unfold cell_nodes. unfold tagged. set (t := bs tag). clearbody t. assert (reach (JStr []) [bs "inlines"] = None) as R by reflexivity.
  set (j := JStr []) in *. clearbody j. repeat step. finish.
Qed.

Definition cell_call (b : block) : Prop := forall tag,
  call (bs "self") (bs "process_table_cell") [(bs "cell", VJ (json_of_block b)); (bs "tag", VJ (JStr (bs tag)))] = Ok (tagged tag [] (inlines_html (cell_of b))).
Definition no_cell_call : Prop := forall tag,
  call (bs "self") (bs "process_table_cell") [(bs "cell", VJ (JStr [])); (bs "tag", VJ (JStr (bs tag)))] = Ok (tagged tag [] []).
Section Cells.
Variables (e : env) (j : json) (k : list block) (c : Z).
Hypothesis B : bound (bs "block") e = Some (VJ j).
Hypothesis R : reach j [bs "blocks"] = Some (JArr (map json_of_block k)).
Hypothesis C : Forall cell_call k.
Hypothesis C0 : no_cell_call.
Definition nth_cell : expr := EFilter (EPath (bs "block") [bs "blocks"]) (bs "nth") [(bs "n", EPath (bs "idx") [])].
Definition the_cell (tag : string) : expr := ECall (bs "self") (bs "process_table_cell") [(bs "cell", EPath (bs "cell") []); (bs "tag", EStr (bs tag))].
Lemma nth_value i : value_of w ((bs "idx", VZ (Z.of_nat i)) :: e) nth_cell = Ok (VJ (nth i (map json_of_block k) (JStr []))).
Proof.
  unfold nth_cell. erewrite v_filter with (vs := [(bs "n", VZ (Z.of_nat i))]); [|eapply v_path; [exact B|exact R]|reflexivity].
  change ((if (Z.of_nat i <? 0)%Z then Panic else Ok (VJ (nth (Z.to_nat (Z.of_nat i)) (map json_of_block k) (JStr [])))) = (Ok (VJ (nth i (map json_of_block k) (JStr []))) : result value)).
  assert ((Z.of_nat i <? 0)%Z = false) as -> by (apply Z.ltb_ge; lia). now rewrite Nat2Z.id.
Qed.
Lemma cell_shown tag i : call (bs "self") (bs "process_table_cell") [(bs "cell", VJ (nth i (map json_of_block k) (JStr []))); (bs "tag", VJ (JStr (bs tag)))]
  = Ok (tagged tag [] (inlines_html (nth i (map cell_of k) []))).
Proof.
  destruct (Nat.lt_ge_cases i (List.length k)) as [L|L].
  - rewrite (nth_indep _ _ (json_of_block (Blk HDList None [] []))) by now rewrite map_length.
    rewrite (nth_indep _ _ (cell_of (Blk HDList None [] []))) by now rewrite map_length. rewrite !map_nth.
    rewrite Forall_forall in C. apply C. now apply nth_In.
  - rewrite !nth_overflow by now rewrite map_length. apply C0.
Qed.
Lemma head_turn pre r i : out pre (nodes ((bs "idx", VZ (Z.of_nat i)) :: e) (NSet (bs "cell") nth_cell :: NShow (the_cell "th") :: r))
  = out (pre ++ tagged "th" [] (inlines_html (nth i (map cell_of k) [])))
        (nodes ((bs "cell", VJ (nth i (map json_of_block k) (JStr []))) :: (bs "idx", VZ (Z.of_nat i)) :: e) r).
Proof.
  rewrite (out_set _ _ _ _ _ _ _ _ (nth_value i)). unfold the_cell. erewrite out_call by reflexivity. now rewrite cell_shown.
Qed.
Lemma body_turn pre r i : out pre (nodes ((bs "idx", VZ (Z.of_nat i)) :: e) (NSet (bs "cell") nth_cell :: NShow (the_cell "td") :: r))
  = out (pre ++ tagged "td" [] (inlines_html (nth i (map cell_of k) [])))
        (nodes ((bs "cell", VJ (nth i (map json_of_block k) (JStr []))) :: (bs "idx", VZ (Z.of_nat i)) :: e) r).
Proof.
  rewrite (out_set _ _ _ _ _ _ _ _ (nth_value i)). unfold the_cell. erewrite out_call by reflexivity. now rewrite cell_shown.
Qed.
(** a turn gives its text, whatever names are bound afterwards *)
Lemma turns_out x body l (f : value -> result bytes) : (forall v, In v l -> out [] (nodes ((x, v) :: e) body) = f v) ->
  turns w call e x body l = fold_right (fun v r => let* s := f v in let* t := r in Ok (s ++ t)) (Ok []) l.
Proof.
  induction l as [|v l IH]; intros H; [reflexivity|]. rewrite turns_cons. cbn [fold_right]. rewrite <- (H v) by now left.
  rewrite IH by (intros u U; apply H; now right). unfold out. destruct (nodes ((x, v) :: e) body) as [[]| | | |]; reflexivity.
Qed.
Definition head_body : list node := [NSet (bs "cell") nth_cell; NShow (the_cell "th"); NText (line 4)].
Lemma head_turns l : turns w call e (bs "idx") head_body (map (fun n => VZ (Z.of_nat n)) l)
  = Ok (List.concat (map (fun i => tagged "th" [] (inlines_html (nth i (map cell_of k) [])) ++ line 4) l)).
Proof.
  rewrite (turns_out _ _ _ (fun v => match v with VZ z => Ok (tagged "th" [] (inlines_html (nth (Z.to_nat z) (map cell_of k) [])) ++ line 4) | _ => Panic end)).
  - induction l as [|i l IH]; [reflexivity|]. cbn [map fold_right]. rewrite IH. cbn [bind List.concat]. now rewrite Nat2Z.id.
  - intros v V. apply in_map_iff in V as (i & <- & _). unfold head_body. rewrite head_turn, out_text, out_nil. now rewrite Nat2Z.id.
Qed.
Hypothesis Bc : bound (bs "cols") e = Some (VZ c).
Hypothesis Bn : bound (bs "num_cells") e = Some (VZ (Z.of_nat (List.length k))).
Definition next : expr := EOp (bs "+") (EPath (bs "idx") []) (EInt 1).
Definition ends_row : expr :=
  EOp (bs "and") (EOp (bs "and") (EOp (bs ">") (EPath (bs "idx") []) (EInt 0)) (EOp (bs "==") (EOp (bs "%") next (EPath (bs "cols") [])) (EInt 0)))
    (EOp (bs "!=") next (EPath (bs "num_cells") [])).
Lemma row_ends v i : truth_of w ((bs "cell", v) :: (bs "idx", VZ (Z.of_nat i)) :: e) ends_row = row_break c i (List.length k).
Proof.
  set (E := (bs "cell", v) :: (bs "idx", VZ (Z.of_nat i)) :: e).
  assert (value_of w E (EPath (bs "idx") []) = Ok (VZ (Z.of_nat i))) as Vi by reflexivity.
  assert (value_of w E (EPath (bs "cols") []) = Ok (VZ c)) as Vc by exact (v_name w _ _ _ (Bc : bound (bs "cols") E = _)).
  assert (value_of w E (EPath (bs "num_cells") []) = Ok (VZ (Z.of_nat (List.length k)))) as Vn by exact (v_name w _ _ _ (Bn : bound (bs "num_cells") E = _)).
  assert (value_of w E next = Ok (VZ (Z.of_nat i + 1))) as Vx.
  { unfold next. cbn [value_of]. cbn [value_of] in Vi. rewrite Vi. reflexivity. }
  assert (truth_of w E (EOp (bs ">") (EPath (bs "idx") []) (EInt 0)) = Ok (0 <? Z.of_nat i)%Z) as T1.
  { cbn [truth_of value_of]. cbn [value_of] in Vi. rewrite Vi. reflexivity. }
  assert (truth_of w E (EOp (bs "==") (EOp (bs "%") next (EPath (bs "cols") [])) (EInt 0))
    = if (c =? 0)%Z then Panic else Ok (Z.rem (Z.of_nat i + 1) c =? 0)%Z) as T2.
  { change (truth_of w E (EOp (bs "==") (EOp (bs "%") next (EPath (bs "cols") [])) (EInt 0))) with
      (let* b := (let* u := (let* u := value_of w E next in let* v := value_of w E (EPath (bs "cols") []) in
                  match number u, number v with Some m, Some n => if (n =? 0)%Z then Panic else Ok (VZ (Z.rem m n)) | _, _ => Panic end) in
                  Ok (VB (same u (VZ 0)))) in Ok (truthy b)).
    rewrite Vx, Vc. cbn [bind number]. destruct (c =? 0)%Z; reflexivity. }
  assert (truth_of w E (EOp (bs "!=") next (EPath (bs "num_cells") [])) = Ok (negb (Z.of_nat i + 1 =? Z.of_nat (List.length k))%Z)) as T3.
  { rewrite (t_value _ _ _ (VB (negb (same (VZ (Z.of_nat i + 1)) (VZ (Z.of_nat (List.length k))))))); [reflexivity|reflexivity|]. now apply v_neq. }
  change (truth_of w E ends_row) with
    (let* b := (let* p := (let* b := (let* p := truth_of w E (EOp (bs ">") (EPath (bs "idx") []) (EInt 0)) in
        if (p : bool) then let* q := truth_of w E (EOp (bs "==") (EOp (bs "%") next (EPath (bs "cols") [])) (EInt 0)) in Ok (VB q) else Ok (VB false)) in Ok (truthy b)) in
        if (p : bool) then let* q := truth_of w E (EOp (bs "!=") next (EPath (bs "num_cells") [])) in Ok (VB q) else Ok (VB false)) in Ok (truthy b)).
  rewrite T1, T2, T3. unfold row_break. destruct i as [|i].
  - reflexivity.
  - change (S i =? 0) with false. assert ((0 <? Z.of_nat (S i))%Z = true) as -> by (apply Z.ltb_lt; lia). cbn [bind truthy].
    destruct (c =? 0)%Z; [reflexivity|]. cbn [bind truthy]. destruct (_ =? 0)%Z; [|reflexivity]. cbn [bind truthy andb]. do 2 f_equal.
    destruct (Nat.eqb_spec (S i + 1) (List.length k)); [apply Z.eqb_eq|apply Z.eqb_neq]; lia.
Qed.
Definition td_body : list node :=
  [NSet (bs "cell") nth_cell; NShow (the_cell "td"); NIf [(ends_row, [NText (line 8 ++ bs "</tr>" ++ line 8 ++ bs "<tr>")])] []; NText (line 8)].
Fixpoint laid_body (l : list nat) : result bytes :=
  match l with
  | [] => Ok []
  | i :: r =>
      let* brk := row_break c i (List.length k) in
      let* rest := laid_body r in
      Ok (tagged "td" [] (inlines_html (nth i (map cell_of k) [])) ++ (if (brk : bool) then line 8 ++ bs "</tr>" ++ line 8 ++ bs "<tr>" else []) ++ line 8 ++ rest)
  end.
Lemma td_turns l : turns w call e (bs "idx") td_body (map (fun n => VZ (Z.of_nat n)) l) = laid_body l.
Proof.
  rewrite (turns_out _ _ _ (fun v => match v with VZ z => let* brk := row_break c (Z.to_nat z) (List.length k) in
    Ok (tagged "td" [] (inlines_html (nth (Z.to_nat z) (map cell_of k) [])) ++ (if (brk : bool) then line 8 ++ bs "</tr>" ++ line 8 ++ bs "<tr>" else []) ++ line 8) | _ => Panic end)).
  - induction l as [|i l IH]; [reflexivity|]. cbn [map fold_right laid_body]. rewrite IH, Nat2Z.id.
    destruct (row_break c i (List.length k)); cbn [bind]; try reflexivity. destruct (laid_body l); cbn [bind]; try reflexivity. now rewrite <- !app_assoc.
  - intros v V. apply in_map_iff in V as (i & <- & _). unfold td_body. rewrite body_turn, Nat2Z.id.
    destruct (row_break c i (List.length k)) as [brk| | | |] eqn:RB; try (rewrite out_cons, node_if, row_ends, RB; reflexivity).
    cbn [bind]. rewrite (out_if _ _ _ _ _ _ _ _ _ brk) by (now rewrite row_ends). destruct brk; [|rewrite out_else]; cbn [app]; rewrite !out_text, out_nil; now rewrite <- ?app_assoc.
Qed.
End Cells.
End Runs.
