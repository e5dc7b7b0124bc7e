(** * The templates, executed *)
From Verif Require SpecMeta SpecPage PageProofs ScriptHtml.
From Verif Require Import Base World Location Token Meta Inline Block Asg Json Html SpecJson TreeInd
  SpecScan SpecDoc SpecArticle SpecArticleHtml SpecScript SpecScriptHtml SpecHtmlPage SpecTemplates Tera Templates.
Local Open Scope char_scope.
Local Open Scope nat_scope.

(** ** The library, read *)
Definition parsed : library := Eval vm_compute in templates.
Lemma parsed_ok : read_library sources = Some parsed.
Proof. vm_compute. reflexivity. Qed.
Definition body_of (f m : string) : list node :=
  match file_of (bs f) parsed with
  | Some t => match macro_of (bs m) t with Some (_, b) => b | None => [] end
  | None => []
  end.
Definition page_nodes : list node := Eval vm_compute in match file_of (bs "htmlbook.html.tera") parsed with Some t => t | None => [] end.
Definition block_nodes : list node := Eval vm_compute in body_of "block.html.tera" "process_block".
Definition leaf_nodes : list node := Eval vm_compute in body_of "leafblocks.html.tera" "process_leaf_block".
Definition table_nodes : list node := Eval vm_compute in body_of "tables.html.tera" "process_table".
Definition cell_nodes : list node := Eval vm_compute in body_of "tables.html.tera" "process_table_cell".
Definition inline_nodes : list node := Eval vm_compute in body_of "inline.html.tera" "process_inline".

(** ** Steps *)
Section Steps.
Variable w : world.
Variable call : bytes -> bytes -> list (bytes * value) -> result bytes.
Notation nodes := (render_nodes w call).

Definition out (pre : bytes) (r : result (bytes * env)) : result bytes := let* p := r in Ok (pre ++ fst p).
Lemma nodes_app e a b : nodes e (a ++ b) = let* p := nodes e a in let* q := nodes (snd p) b in Ok (fst p ++ fst q, snd q).
Proof.
  revert e. induction a as [|n a IH]; intros e; cbn [app render_nodes bind fst snd].
  - destruct (nodes e b) as [[]| | | |]; reflexivity.
  - destruct (render_node w call e n) as [[s e']| | | |]; cbn [bind snd fst]; try reflexivity. rewrite IH.
    destruct (nodes e' a) as [[]| | | |]; cbn [bind snd fst]; try reflexivity.
    destruct (nodes _ b) as [[]| | | |]; cbn [bind snd fst]; try reflexivity. now rewrite app_assoc.
Qed.
Lemma out_nil pre e : out pre (nodes e []) = Ok pre.
Proof. cbn. now rewrite app_nil_r. Qed.
Lemma out_cons pre e n r : out pre (nodes e (n :: r)) = let* p := render_node w call e n in out (pre ++ fst p) (nodes (snd p) r).
Proof.
  unfold out. cbn [render_nodes]. destruct (render_node w call e n) as [[s e']| | | |]; cbn [bind snd fst]; try reflexivity.
  destruct (nodes e' r) as [[]| | | |]; cbn [bind snd fst]; try reflexivity. now rewrite app_assoc.
Qed.
Lemma out_app pre e a b : out pre (nodes e (a ++ b)) = let* p := nodes e a in out (pre ++ fst p) (nodes (snd p) b).
Proof.
  unfold out. rewrite nodes_app. destruct (nodes e a) as [[s e']| | | |]; cbn [bind snd fst]; try reflexivity.
  destruct (nodes e' b) as [[]| | | |]; cbn [bind snd fst]; try reflexivity. now rewrite app_assoc.
Qed.
Lemma out_text pre e s r : out pre (nodes e (NText s :: r)) = out (pre ++ s) (nodes e r).
Proof. now rewrite out_cons. Qed.
Lemma out_set pre e x y v r : value_of w e y = Ok v -> out pre (nodes e (NSet x y :: r)) = out pre (nodes ((x, v) :: e) r).
Proof. intros H. rewrite out_cons. cbn [render_node]. rewrite H. cbn [bind fst snd]. now rewrite app_nil_r. Qed.
Lemma out_set_panic pre e x y r : value_of w e y = Panic -> out pre (nodes e (NSet x y :: r)) = Panic.
Proof. intros H. rewrite out_cons. cbn [render_node]. now rewrite H. Qed.
Lemma node_if e c ns l o : render_node w call e (NIf ((c, ns) :: l) o) = let* b := truth_of w e c in if (b : bool) then nodes e ns else render_node w call e (NIf l o).
Proof. reflexivity. Qed.
Lemma node_else e o : render_node w call e (NIf [] o) = nodes e o.
Proof. reflexivity. Qed.
Lemma out_if pre e c ns l o r b : truth_of w e c = Ok b ->
  out pre (nodes e (NIf ((c, ns) :: l) o :: r)) = out pre (nodes e (if b then ns ++ r else NIf l o :: r)).
Proof.
  intros H. rewrite out_cons, node_if, H. cbn [bind]. destruct b; [now rewrite out_app|]. now rewrite out_cons.
Qed.
Lemma out_else pre e o r : out pre (nodes e (NIf [] o :: r)) = out pre (nodes e (o ++ r)).
Proof. now rewrite out_cons, node_else, out_app. Qed.
Definition is_call (x : expr) : bool := match x with ECall _ _ _ => true | _ => false end.
Lemma out_show pre e x v s r : is_call x = false -> value_of w e x = Ok v -> shown_text v = Ok s -> out pre (nodes e (NShow x :: r)) = out (pre ++ s) (nodes e r).
Proof. intros C H S. rewrite out_cons. destruct x; try discriminate C; cbn [render_node]; rewrite H; cbn [bind]; rewrite S; reflexivity. Qed.
Lemma out_call pre e sp f l vs r : args_of w e l = Ok vs ->
  out pre (nodes e (NShow (ECall sp f l) :: r)) = let* s := call sp f vs in out (pre ++ s) (nodes e r).
Proof. intros H. rewrite out_cons. cbn [render_node]. rewrite H. cbn [bind]. now destruct (call sp f vs). Qed.
Definition turns (e : env) (x : bytes) (body : list node) : list value -> result bytes :=
  fix turns (l : list value) : result bytes :=
    match l with
    | [] => Ok []
    | v :: r => let* p := nodes ((x, v) :: e) body in let* q := turns r in Ok (fst p ++ q)
    end.
Lemma turns_cons e x body v r : turns e x body (v :: r) = let* p := nodes ((x, v) :: e) body in let* q := turns e x body r in Ok (fst p ++ q).
Proof. reflexivity. Qed.
Lemma out_for pre e x y l body r : is_call y = false -> value_of w e y = Ok (VJ (JArr l)) ->
  out pre (nodes e (NFor x y body :: r)) = let* s := turns e x body (map VJ l) in out (pre ++ s) (nodes e r).
Proof.
  intros C H. rewrite out_cons. change (fun e l => render_nodes w call e l) with nodes.
  assert (render_node w call e (NFor x y body) = let* v := value_of w e y in
    let* items := match v with VJ (JArr l) => Ok (map VJ l) | _ => Panic end in let* s := turns e x body items in Ok (s, e)) as ->.
  { destruct y; try discriminate C; cbn [render_node]; destruct (value_of w e _); reflexivity. }
  rewrite H. cbn [bind]. destruct (turns e x body (map VJ l)); reflexivity.
Qed.
Lemma out_range pre e x l vs items body r : args_of w e l = Ok vs -> range_of vs = Ok items ->
  out pre (nodes e (NFor x (ECall [] (bs "range") l) body :: r)) = let* s := turns e x body items in out (pre ++ s) (nodes e r).
Proof.
  intros H R. rewrite out_cons.
  assert (render_node w call e (NFor x (ECall [] (bs "range") l) body) = let* vs := args_of w e l in
    let* items := range_of vs in let* s := turns e x body items in Ok (s, e)) as ->.
  { cbn [render_node]. change (beqb (bs "range") (bs "range")) with true. cbv iota. destruct (args_of w e l); reflexivity. }
  rewrite H. cbn [bind]. rewrite R. cbn [bind]. destruct (turns e x body items); reflexivity.
Qed.
Lemma out_range_panic pre e x l vs body r : args_of w e l = Ok vs -> range_of vs = Panic ->
  out pre (nodes e (NFor x (ECall [] (bs "range") l) body :: r)) = Panic.
Proof.
  intros H R. rewrite out_cons.
  assert (render_node w call e (NFor x (ECall [] (bs "range") l) body) = let* vs := args_of w e l in
    let* items := range_of vs in let* s := turns e x body items in Ok (s, e)) as ->.
  { cbn [render_node]. change (beqb (bs "range") (bs "range")) with true. cbv iota. destruct (args_of w e l); reflexivity. }
  rewrite H. cbn [bind]. now rewrite R.
Qed.

(** ** Values *)
Lemma v_path e x k ks j v : bound x e = Some (VJ j) -> reach j (k :: ks) = Some v -> value_of w e (EPath x (k :: ks)) = Ok (VJ v).
Proof. intros B R. cbn [value_of]. unfold path_value. now rewrite B, R. Qed.
Lemma v_path_panic e x k ks j : bound x e = Some (VJ j) -> reach j (k :: ks) = None -> value_of w e (EPath x (k :: ks)) = Panic.
Proof. intros B R. cbn [value_of]. unfold path_value. now rewrite B, R. Qed.
Lemma v_name e x v : bound x e = Some v -> value_of w e (EPath x []) = Ok v.
Proof. intros B. cbn [value_of]. unfold path_value. now rewrite B. Qed.
Lemma v_eq e a b u v : value_of w e a = Ok u -> value_of w e b = Ok v -> value_of w e (EOp (bs "==") a b) = Ok (VB (same u v)).
Proof. intros A B. cbn [value_of]. rewrite A, B. reflexivity. Qed.
Lemma v_neq e a b u v : value_of w e a = Ok u -> value_of w e b = Ok v -> value_of w e (EOp (bs "!=") a b) = Ok (VB (negb (same u v))).
Proof. intros A B. cbn [value_of]. rewrite A, B. reflexivity. Qed.
Lemma v_cat e a b u v s t : value_of w e a = Ok u -> value_of w e b = Ok v -> shown_text u = Ok s -> shown_text v = Ok t ->
  value_of w e (EOp (bs "~") a b) = Ok (VJ (JStr (s ++ t))).
Proof. intros A B C D. cbn [value_of]. rewrite A, B. cbn [bind]. change (beqb (bs "~") (bs "and")) with false. cbn -[shown_text]. now rewrite C, D. Qed.
Lemma v_and e a b p q : truth_of w e a = Ok p -> truth_of w e b = Ok q -> value_of w e (EOp (bs "and") a b) = Ok (VB (p && q)).
Proof.
  intros A B. change (value_of w e (EOp (bs "and") a b)) with
    (let* p := truth_of w e a in if (p : bool) then let* q := truth_of w e b in Ok (VB q) else Ok (VB false)).
  rewrite A, B. now destruct p.
Qed.
Lemma v_or e a b p q : truth_of w e a = Ok p -> truth_of w e b = Ok q -> value_of w e (EOp (bs "or") a b) = Ok (VB (p || q)).
Proof.
  intros A B. change (value_of w e (EOp (bs "or") a b)) with
    (let* p := truth_of w e a in if (p : bool) then Ok (VB true) else let* q := truth_of w e b in Ok (VB q)).
  rewrite A, B. now destruct p.
Qed.
Lemma v_not e a p : truth_of w e a = Ok p -> value_of w e (ENot a) = Ok (VB (negb p)).
Proof. intros A. change (value_of w e (ENot a)) with (let* b := truth_of w e a in Ok (VB (negb b))). now rewrite A. Qed.
Lemma v_filter e a f l v vs : value_of w e a = Ok v -> args_of w e l = Ok vs -> value_of w e (EFilter a f l) = apply_filter w v f vs.
Proof.
  intros A B. change (value_of w e (EFilter a f l)) with (let* v := value_of w e a in let* vs := args_of w e l in apply_filter w v f vs).
  rewrite A, B. reflexivity.
Qed.
Definition among (e : env) (v : value) : list expr -> result value :=
  fix among (l : list expr) : result value :=
    match l with
    | [] => Ok (VB false)
    | y :: r => let* u := value_of w e y in if same v u then Ok (VB true) else among r
    end.
Lemma v_in e a l v u : value_of w e a = Ok v -> among e v l = Ok u -> value_of w e (EOp (bs "in") a (EList l)) = Ok u.
Proof.
  intros A B. change (value_of w e (EOp (bs "in") a (EList l))) with (let* v := value_of w e a in among e v l). now rewrite A.
Qed.
Lemma t_some e x k ks j v : bound x e = Some (VJ j) -> reach j (k :: ks) = Some v -> truth_of w e (EPath x (k :: ks)) = Ok (truthy (VJ v)).
Proof. intros B R. cbn [truth_of]. unfold path_value. now rewrite B, R. Qed.
Lemma t_none e x k ks j : bound x e = Some (VJ j) -> reach j (k :: ks) = None -> truth_of w e (EPath x (k :: ks)) = Ok false.
Proof. intros B R. cbn [truth_of]. unfold path_value. now rewrite B, R. Qed.
Lemma t_name e x : truth_of w e (EPath x []) = Ok (match bound x e with Some v => truthy v | None => false end).
Proof. cbn [truth_of]. unfold path_value. now destruct (bound x e). Qed.
Definition is_path (x : expr) : bool := match x with EPath _ _ => true | _ => false end.
Lemma t_value e x v : is_path x = false -> value_of w e x = Ok v -> truth_of w e x = Ok (truthy v).
Proof. intros P H. destruct x; try discriminate P; cbn [truth_of]; now rewrite H. Qed.

(** ** Loops over inlines and blocks *)
Lemma turns_calls e x sp f vs (body : list node) (l : list value) (R : value -> result bytes) :
  (forall v, nodes ((x, v) :: e) body = let* s := call sp f (vs v) in Ok (s, (x, v) :: e)) ->
  Forall (fun v => call sp f (vs v) = R v) l ->
  turns e x body l = fold_right (fun v r => let* s := R v in let* t := r in Ok (s ++ t)) (Ok []) l.
Proof.
  intros B F. induction F as [|v l H F IH]; [reflexivity|]. rewrite turns_cons. cbn [fold_right]. rewrite B, H, IH. destruct (R v); reflexivity.
Qed.

(** ** Metadata *)
Definition metas (j : json) (m : option metadata) : Prop :=
  forall ks, reach j (bs "metadata" :: ks) = match m with Some y => reach (json_of_meta y) ks | None => None end.
Definition has_roles (m : option metadata) : bool :=
  match m with Some y => match m_roles y with [] => false | _ => true end | None => false end.
Lemma strings_all l : strings_of (map JStr l) = Some l.
Proof. induction l as [|s l IH]; [reflexivity|]. cbn [map strings_of fold_right]. unfold strings_of in IH. now rewrite IH. Qed.
Lemma member_map k l : member k (map (fun kv : bytes * bytes => (fst kv, JStr (snd kv))) l) = option_map JStr (lookup k l).
Proof. rewrite ScriptHtml.lookup_mget. induction l as [|[k' v] l IH]; [reflexivity|]. cbn [map member mget fst snd]. destruct (beqb k k'); [reflexivity|exact IH]. Qed.
Section Metas.
Variables (e : env) (x : bytes) (j : json) (m : option metadata).
Hypothesis B : bound x e = Some (VJ j).
Hypothesis M : metas j m.
Lemma t_roles : truth_of w e (EPath x [bs "metadata"; bs "roles"]) = Ok (has_roles m).
Proof.
  destruct m as [y|]; [|apply (t_none _ _ _ _ j B (M [bs "roles"]))]. rewrite (t_some _ _ _ _ j (JArr (map JStr (m_roles y))) B (M [bs "roles"])). cbn [has_roles].
  now destruct (m_roles y).
Qed.
Lemma s_class c pre r : truth_of w e c = Ok (has_roles m) ->
  out pre (nodes e (NIf [(c, [NText (bs " class="""); NShow (EFilter (EPath x [bs "metadata"; bs "roles"]) (bs "join") [(bs "sep", EStr (bs " "))]); NText (bs """")])] [] :: r))
  = out (pre ++ class_html m) (nodes e r).
Proof.
  intros T. rewrite (out_if _ _ _ _ _ _ _ _ T). destruct (has_roles m) eqn:E.
  - cbn [app]. rewrite out_text. destruct m as [y|]; [|discriminate]. cbn [has_roles] in E.
    erewrite out_show with (v := VJ (JStr (join (bs " ") (m_roles y)))) (s := join (bs " ") (m_roles y)); [| reflexivity | | reflexivity].
    + rewrite out_text. f_equal. cbn [class_html]. destruct (m_roles y); [discriminate|]. rewrite <- !app_assoc. now rewrite ScriptHtml.joined_spaced.
    + rewrite (v_filter _ _ _ _ (VJ (JArr (map JStr (m_roles y)))) [(bs "sep", VJ (JStr (bs " ")))]);
        [|exact (v_path _ _ _ _ j (JArr (map JStr (m_roles y))) B (M [bs "roles"]))|reflexivity].
      change (match strings_of (map JStr (m_roles y)) with Some s => Ok (VJ (JStr (join (bs " ") s))) | None => Panic end = (Ok (VJ (JStr (join (bs " ") (m_roles y)))) : result value)).
      now rewrite strings_all.
  - rewrite out_else. cbn [app]. f_equal. assert (class_html m = []) as ->; [|now rewrite app_nil_r].
    destruct m as [y|]; [|reflexivity]. cbn in *. now destruct (m_roles y).
Qed.
Lemma reach_attr k : reach j [bs "metadata"; bs "attributes"; bs k] = match m with Some y => option_map JStr (lookup (bs k) (m_attrs y)) | None => None end.
Proof.
  rewrite M. destruct m as [y|]; [|reflexivity]. change (reach (json_of_meta y) [bs "attributes"; bs k]) with (reach (json_of_map (m_attrs y)) [bs k]).
  unfold json_of_map. cbn [reach]. rewrite member_map. now destruct (lookup (bs k) (m_attrs y)).
Qed.
Lemma t_attr_no k : noted k m = [] -> truth_of w e (EPath x [bs "metadata"; bs "attributes"; bs k]) = Ok false.
Proof.
  pose proof (reach_attr k) as R. unfold noted. intros N. destruct m as [y|]; [|apply (t_none _ _ _ _ j B R)].
  destruct (lookup (bs k) (m_attrs y)) as [v|]; [|apply (t_none _ _ _ _ j B R)]. rewrite (t_some _ _ _ _ j _ B R). now rewrite N.
Qed.
Lemma v_attr k c v : noted k m = c :: v -> value_of w e (EPath x [bs "metadata"; bs "attributes"; bs k]) = Ok (VJ (JStr (c :: v))).
Proof.
  pose proof (reach_attr k) as R. unfold noted. intros N. destruct m as [y|]; [|discriminate].
  destruct (lookup (bs k) (m_attrs y)) as [u|]; [|discriminate]. rewrite (v_path _ _ _ _ j _ B R). now rewrite N.
Qed.
Lemma t_attr k c v : noted k m = c :: v -> truth_of w e (EPath x [bs "metadata"; bs "attributes"; bs k]) = Ok true.
Proof. intros N. pose proof (v_attr _ _ _ N) as H. cbn [value_of] in H. cbn [truth_of]. destruct (path_value _ _ _); [|discriminate]. now injection H as ->. Qed.
End Metas.
End Steps.
