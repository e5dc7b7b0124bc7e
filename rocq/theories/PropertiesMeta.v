(** * C26 to C29, C60: element metadata *)
From Coq Require Import Permutation.
From Verif Require Import Base World Location Token Scanner Meta Inline Block Asg Parser Json Html Docx SpecDoc SpecMeta MetaProofs.
Local Open Scope char_scope.
Local Open Scope nat_scope.

Definition lines (l : list bytes) : bytes := List.concat (map (fun s => s ++ [NL]) l).
Definition parsed (src : bytes) : result asg := parse world0 20 [] false src.
Definition list_token (s : bytes) : token := mkTok TElementAttributes (bs "[" ++ s ++ bs "]") None 1 1 1 [].

(** ** C26: the order of the entries of the attribute maps matters neither to the HTML nor
    to the docx output, nor to merging metadata, and changes the JSON value only in the order
    of object members.  Missing: the JSON text, which does show the order (refuted). *)
Theorem C26_partial : forall a b, same_graph a b ->
  (forall w, render_htmlbook w a = render_htmlbook w b) /\ (forall img, render_docx img a = render_docx img b)
  /\ same_json (json_of_asg a) (json_of_asg b).
Proof. exact same_rendered. Qed.
Print Assumptions C26_partial.
(** ** C48: the HTML and the docx output, and the merging of metadata, do not depend on it *)
Theorem C48_html : forall w a b, same_graph a b -> render_htmlbook w a = render_htmlbook w b.
Proof. exact same_html. Qed.
Print Assumptions C48_html.
Theorem C48_docx : forall img a b, same_graph a b -> render_docx img a = render_docx img b.
Proof. exact same_docx. Qed.
Print Assumptions C48_docx.
Theorem C48_merge : forall m m' i i', same_meta (Some m) (Some m') -> same_meta (Some i) (Some i') ->
  same_meta (Some (add_metadata_from_other m i)) (Some (add_metadata_from_other m' i')).
Proof. exact same_merge. Qed.
Print Assumptions C48_merge.

Definition swapped (attrs : list (bytes * bytes)) : asg :=
  mkAsg None None [] [] [Blk (HMacro (bs "t.png") []) (Some (mkMeta attrs [] [] false None [])) [] []] [mkLoc 1 1 []].
Definition one_order : asg := swapped [(bs "alt", bs "A"); (bs "id", bs "I")].
Definition other_order : asg := swapped [(bs "id", bs "I"); (bs "alt", bs "A")].
Lemma orders : same_graph one_order other_order.
Proof.
  split; [|split; [reflexivity|split; exact I]]. constructor; [|constructor]. constructor; [repeat constructor| |constructor].
  split; [|repeat split]. split; [|apply perm_swap]. repeat constructor; intros H; repeat destruct H as [H|H]; try discriminate H; exact H.
Qed.
Example C26_example : same_graph one_order other_order /\ one_order <> other_order
  /\ render_htmlbook world0 one_order = render_htmlbook world0 other_order
  /\ (exists h, render_htmlbook world0 one_order = Ok h /\ contains (bs "<figure id=""I"">") h = true).
Proof.
  split; [exact orders|]. split; [discriminate|]. split; [apply C48_html; exact orders|]. eexists. split; vm_compute; reflexivity.
Qed.
Theorem C26_json_refuted : exists a b, same_graph a b /\ render_json a <> render_json b.
Proof. exists one_order, other_order. split; [exact orders|]. vm_compute. discriminate. Qed.
Print Assumptions C26_json_refuted.

(** ** C27: all attributes and options are kept and added, the own roles are kept, all else stays.
    Missing: the incoming roles, which are dropped; the incoming options are added to the roles
    (refuted). *)
Theorem C27_partial : forall m inc, NoDup (map fst (m_attrs inc)) ->
  (forall k, mget k (m_attrs (add_metadata_from_other m inc))
     = match mget k (m_attrs inc) with Some v => Some v | None => mget k (m_attrs m) end)
  /\ m_options (add_metadata_from_other m inc) = m_options m ++ m_options inc
  /\ m_roles (add_metadata_from_other m inc) = m_roles m ++ m_options inc
  /\ m_type (add_metadata_from_other m inc) = m_type m /\ m_inline (add_metadata_from_other m inc) = m_inline m
  /\ m_loc (add_metadata_from_other m inc) = m_loc m.
Proof. exact merged. Qed.
Print Assumptions C27_partial.
Example C27_example :
  m_attrs (add_metadata_from_other (mkMeta [(bs "a", bs "1"); (bs "b", bs "2")] [] [] false None [])
                                   (mkMeta [(bs "b", bs "3"); (bs "c", bs "4")] [] [] false None []))
  = [(bs "a", bs "1"); (bs "b", bs "3"); (bs "c", bs "4")].
Proof. vm_compute. reflexivity. Qed.
Theorem C27_refuted : exists m inc r, NoDup (map fst (m_attrs inc)) /\ In r (m_roles inc) /\ ~ In r (m_roles (add_metadata_from_other m inc)).
Proof.
  exists default_metadata, (meta_with_role (bs "big")), (bs "big"). split; [constructor|]. split; [now left|]. vm_compute. intros [].
Qed.
Print Assumptions C27_refuted.
Theorem C27_options_refuted : exists m inc r, ~ In r (m_roles m) /\ ~ In r (m_roles inc) /\ In r (m_roles (add_metadata_from_other m inc)).
Proof.
  exists default_metadata, (mkMeta [] [bs "header"] [] false None []), (bs "header"). split; [intros []|]. split; [intros []|]. now left.
Qed.
Print Assumptions C27_options_refuted.

(** ** C28: a list without quotes whose first field is ASCII, with at most three fields or not
    declared a quote or verse, is accepted.  Missing: the rest (refuted). *)
Theorem C28_partial : forall w s t, ttype t = TElementAttributes -> lexeme t = bs "[" ++ s ++ bs "]" ->
  (match s with c :: _ => is_cont c = false | [] => True end) -> ~ In DQ s -> ascii_text (hd [] (fields s)) ->
  (List.length (fields s) <= 3 \/ ~ In (hd [] (fields s)) [bs "quote"; bs "verse"]) ->
  exists m, new_block_meta_from_token w t = Ok m.
Proof. exact accepted. Qed.
Print Assumptions C28_partial.
Example C28_example :
  let s := bs "quote, Zoë ,=x|" in
  (match s with c :: _ => is_cont c = false | [] => True end) /\ ~ In DQ s /\ ascii_text (hd [] (fields s)) /\ List.length (fields s) = 3
  /\ new_block_meta_from_token world0 (list_token s)
     = Ok (mkMeta [(bs "attribution", bs "Zoë"); ([], bs "x|")] [] [] false (Some AQuote) (token_locations (list_token s))).
Proof.
  split; [reflexivity|]. split; [intros H; repeat destruct H as [H|H]; try discriminate H; exact H|].
  split; [repeat constructor|]. split; vm_compute; reflexivity.
Qed.
Theorem C28_refuted : forall w, new_block_meta_from_token w (list_token (bs "日本")) = Panic.
Proof. intros w. destruct w as [? ? ? ? word ? ?]. cbv. destruct (word _), (word _); reflexivity. Qed.
Print Assumptions C28_refuted.
Theorem C28_positions_refuted : forall w, new_block_meta_from_token w (list_token (bs "quote,a,b,c")) = Panic.
Proof. intros w. vm_compute. reflexivity. Qed.
Print Assumptions C28_positions_refuted.
Theorem C28_quote_refuted : forall w, new_block_meta_from_token w (list_token (bs "a=""")) = Panic.
Proof. intros w. vm_compute. reflexivity. Qed.
Print Assumptions C28_quote_refuted.
(** and as documents *)
Example C28_documents : parsed (lines [bs "[日本]"; bs "x"]) = Panic /\ parsed (lines [bs "[quote,a,b,c]"; bs "x"]) = Panic
  /\ parsed (lines [bs "[a=""]"; bs "x"]) = Panic.
Proof. repeat split; vm_compute; reflexivity. Qed.

(** ** C29: distinct names, none of whose pairs ends another, give exactly the map from names to
    values (a role gives its words).  Missing: pairs one of which ends another, equals signs in
    values, spaces after the separating commas (refuted). *)
Theorem C29_partial : forall w l t, Forall (fun p => name_of (fst p) /\ value_of (snd p)) l -> apart l -> NoDup (map fst l) ->
  ttype t = TElementAttributes -> lexeme t = bs "[" ++ attribute_list l ++ bs "]" ->
  exists m, new_block_meta_from_token w t = Ok m /\ names_to_values l m.
Proof. exact named_attributes. Qed.
Print Assumptions C29_partial.
Definition some_pairs : list (bytes * bytes) :=
  [(bs "cols", bs "1,2, 3"); (bs "role", bs "big  red"); (bs "a_1", []); (bs "alt", bs "Ça va")].
Example C29_example :
  Forall (fun p => name_of (fst p) /\ value_of (snd p)) some_pairs /\ apart some_pairs /\ NoDup (map fst some_pairs)
  /\ new_block_meta_from_token world0 (list_token (attribute_list some_pairs))
     = Ok (mkMeta [(bs "cols", bs "1,2, 3"); (bs "a_1", []); (bs "alt", bs "Ça va")] [] [bs "big"; []; bs "red"] false None
             (token_locations (list_token (attribute_list some_pairs)))).
Proof.
  split; [|split; [|split]].
  - repeat apply Forall_cons; [..|apply Forall_nil]; (split; [split; [discriminate|]|split; [|try reflexivity; exact I]]);
      repeat apply Forall_cons; try apply Forall_nil; try (repeat split; discriminate); try (left; reflexivity); right; reflexivity.
  - intros p q x P Q E. apply (f_equal (@rev ascii)) in E. rewrite rev_app_distr in E.
    repeat destruct P as [<-|P]; repeat destruct Q as [<-|Q]; try destruct P; try destruct Q; try reflexivity; vm_compute in E; discriminate E.
  - repeat constructor; intros H; repeat destruct H as [H|H]; try discriminate H; exact H.
  - vm_compute. reflexivity.
Qed.
Theorem C29_refuted : exists l, Forall (fun p => name_of (fst p) /\ value_of (snd p)) l /\ NoDup (map fst l)
  /\ forall w, exists m, new_block_meta_from_token w (list_token (attribute_list l)) = Ok m /\ mget (bs "positional_4") (m_attrs m) = Some (bs "b").
Proof.
  exists [(bs "a", bs "1"); (bs "ba", bs "1")]. split; [|split].
  - repeat apply Forall_cons; [..|apply Forall_nil]; (split; [split; [discriminate|]|split; [|reflexivity]]);
      repeat apply Forall_cons; try apply Forall_nil; try (repeat split; discriminate); left; reflexivity.
  - repeat constructor; intros H; repeat destruct H as [H|H]; try discriminate H; exact H.
  - intros w. eexists. split; vm_compute; reflexivity.
Qed.
Print Assumptions C29_refuted.
Theorem C29_space_refuted : forall w, exists m, new_block_meta_from_token w (list_token (bs "a=""1"", b=""2""")) = Ok m
  /\ mget (bs "positional_4") (m_attrs m) = Some [SP].
Proof. intros w. eexists. split; vm_compute; reflexivity. Qed.
Print Assumptions C29_space_refuted.

(** ** C60: true of lists of named attributes, added to any metadata there is, of several lists
    before one block, and of attribute entries.  Missing: roles, positional attributes, block
    anchors, of which the first counts (refuted). *)
Theorem C60_list_partial : forall w l t m, Forall (fun p => name_of (fst p) /\ value_of (snd p)) l -> apart l ->
  ttype t = TElementAttributes -> lexeme t = bs "[" ++ attribute_list l ++ bs "]" ->
  exists m', add_metadata_from_token w m t = Ok m' /\ forall k, k <> bs "role" ->
    (forall before v after, l = before ++ (k, v) :: after -> ~ In k (map fst after) -> mget k (m_attrs m') = Some v)
    /\ (~ In k (map fst l) -> mget k (m_attrs m') = mget k (m_attrs m)).
Proof. exact later_in_list. Qed.
Print Assumptions C60_list_partial.
Theorem C60_entry_partial : forall w t name value p, simple_line (Entry name value) -> token_text t = spell (Entry name value) ->
  exists p', parse_attribute w t p = Ok p' /\ mget name (p_attrs p') = Some value
    /\ forall k, k <> name -> mget k (p_attrs p') = mget k (p_attrs p).
Proof. exact later_entry. Qed.
Print Assumptions C60_entry_partial.
Theorem C60_refuted : exists a m, parsed (lines [bs "[[one]]"; bs "[[two]]"; bs "x"]) = Ok a
  /\ map b_meta (a_blocks a) = [Some m] /\ mget (bs "id") (m_attrs m) = Some (bs "one").
Proof. do 2 eexists. split; [vm_compute; reflexivity|split; vm_compute; reflexivity]. Qed.
Print Assumptions C60_refuted.
Example C60_example : exists a m, parsed (lines [bs "[a=1,b=2,a=3]"; bs "[b=""4"",c=5]"; bs "x"]) = Ok a
  /\ map b_meta (a_blocks a) = [Some m] /\ m_attrs m = [(bs "a", bs "3"); (bs "b", bs "4"); (bs "c", bs "5")].
Proof. do 2 eexists. split; [vm_compute; reflexivity|split; vm_compute; reflexivity]. Qed.
Example C60_entries : exists a, parsed (lines [bs "= T"; bs ":a: 1"; bs ":b: 2"; bs ":a: 3"; []; bs "{a}{b}"]) = Ok a
  /\ a_attrs a = Some [(bs "a", bs "3"); (bs "b", bs "2")].
Proof. eexists. split; vm_compute; reflexivity. Qed.
