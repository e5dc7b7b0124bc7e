(** * Lemmas on the HTMLBook output *)
From Verif Require Import Base World Location Token Meta Inline Block Asg Json Html SpecScan SpecHtml ScanLemmas TreeInd.
Local Open Scope char_scope.
Local Open Scope nat_scope.

Lemma all_Forall {A} (P : A -> Prop) l : all P l <-> Forall P l.
Proof.
  induction l as [|x l IH]; cbn; [split; auto|]. unfold all in IH. rewrite IH. split.
  - intros []. now constructor.
  - inversion 1. auto.
Qed.
Lemma clean_app a b : clean a -> clean b -> clean (a ++ b).
Proof. intros. now apply Forall_app. Qed.
Lemma clean_nil : clean [].
Proof. constructor. Qed.
Lemma clean_dec n : clean (dec n).
Proof.
  unfold dec. generalize (S n). intros f. revert n. induction f as [|f IH]; intros n; [constructor|]. cbn [dec_fuel].
  assert (forall k, k < 10 -> clean [chr (48 + k)]) as D.
  { intros k K. do 10 (destruct k as [|k]; [repeat constructor; discriminate|]). lia. }
  destruct (n <? 10) eqn:E.
  - apply (D n). now apply Nat.ltb_lt.
  - apply clean_app; [apply IH|]. apply (D (n mod 10)). apply Nat.mod_upper_bound. lia.
Qed.
Ltac cleanb := repeat (apply Forall_cons; [repeat split; discriminate|]); apply Forall_nil.

Ltac okinj H := cbv beta zeta in H; match type of H with Ok ?x = Ok ?y => let K := fresh in
  assert (y = x) as K by (injection H as K; symmetry; exact K); rewrite K in *; clear H K end.

Definition good_attrs (l : list (bytes * bytes)) : Prop := Forall (fun kv => In (fst kv) attribute_names /\ clean (snd kv)) l.
Lemma good_attributes l : good_attrs l -> attributes (attrs_text l).
Proof.
  induction 1 as [|[k v] l [K V] _ IH]; [constructor|]. unfold attrs_text in *. cbn [map List.concat]. unfold attr_text. cbn [fst snd].
  rewrite <- !app_assoc. cbn [app]. now apply attributes_cons.
Qed.
Lemma good_app a b : good_attrs a -> good_attrs b -> good_attrs (a ++ b).
Proof. intros. now apply Forall_app. Qed.
Lemma good_one k v : In (bs k) attribute_names -> clean v -> good_attrs [(bs k, v)].
Proof. intros. constructor; [split; assumption|constructor]. Qed.

Lemma text_app a b : pieces_text (a ++ b) = pieces_text a ++ pieces_text b.
Proof. unfold pieces_text. now rewrite map_app, concat_app. Qed.
Definition ok (l : list piece) : Prop := html (pieces_text l).
Lemma ok_app a b : ok a -> ok b -> ok (a ++ b).
Proof. unfold ok. rewrite text_app. apply html_app. Qed.
Lemma ok_nil : ok [].
Proof. constructor. Qed.
Lemma clean_plain s : clean s -> plain s.
Proof. apply Forall_impl. intros c (L & G & _). auto. Qed.
Lemma ok_text s : plain s -> ok [TText s].
Proof. intros C. unfold ok, pieces_text. cbn. rewrite app_nil_r. now apply html_text. Qed.
Lemma ok_unclosed s : In (bs s) unclosed -> ok [TText (bs s)].
Proof. intros C. unfold ok, pieces_text. cbn. rewrite app_nil_r. now apply html_unclosed. Qed.
Lemma ok_concat {A} (f : A -> list piece) l : Forall (fun x => ok (f x)) l -> ok (List.concat (map f l)).
Proof. induction 1; cbn; [apply ok_nil|now apply ok_app]. Qed.
Lemma ok_element t a l : In t elements -> good_attrs a -> ok l -> ok ([TOpen t a] ++ l ++ [TClose t]).
Proof.
  intros T A L. unfold ok in *. rewrite !text_app. unfold pieces_text at 1 3. cbn [map List.concat piece_text].
  rewrite !app_nil_r. change (bs "<") with ["<"]. change (bs ">") with [">"]. change (bs "</") with ["<"; "/"].
  cbn [app]. rewrite <- !app_assoc. cbn [app]. apply html_element; [assumption|now apply good_attributes|assumption].
Qed.
Lemma ok_tag t a l : In (bs t) elements -> good_attrs a -> ok l -> ok (html_tag t a l).
Proof. apply ok_element. Qed.
Lemma ok_empty g t a : In t empty_elements -> good_attrs a -> ok [TEmpty g t a].
Proof.
  intros T A. unfold ok, pieces_text. cbn [map List.concat piece_text]. rewrite app_nil_r. change (bs "<") with ["<"].
  cbn [app]. replace (bs (if g then " />" else "/>")) with ((if g then [" "] else []) ++ bs "/>") by now destruct g.
  apply html_empty; [assumption|now apply good_attributes|destruct g; auto].
Qed.
Ltac listed := vm_compute; tauto.

Lemma clean_join l : Forall clean l -> clean (join (bs " ") l).
Proof.
  induction 1 as [|x l C _ IH]; [constructor|]. destruct l as [|y l]; [exact C|].
  change (join (bs " ") (x :: y :: l)) with (x ++ bs " " ++ join (bs " ") (y :: l)).
  apply clean_app; [exact C|]. apply clean_app; [cleanb|exact IH].
Qed.
Lemma good_class m : clean_meta m -> good_attrs (class_attr m).
Proof.
  destruct m as [x|]; cbn [clean_meta class_attr]; [|constructor]. intros [R _]. destruct (m_roles x) as [|r rs] eqn:E; [constructor|].
  apply good_one; [listed|]. now apply clean_join.
Qed.
Lemma mget_in {V} k (m : list (bytes * V)) v : mget k m = Some v -> exists k', In (k', v) m.
Proof.
  induction m as [|[k' v'] m IH]; [discriminate|]. cbn. destruct (beqb k k'); [intros [= ->]; eexists; now left|].
  intros H. destruct (IH H) as (k'' & K). exists k''. now right.
Qed.
Lemma clean_meta_attr k m v : clean_meta m -> meta_attr k m = Some v -> clean v.
Proof.
  destruct m as [x|]; [|discriminate]. cbn [clean_meta meta_attr]. intros [_ A] H.
  destruct (mget (bs k) (m_attrs x)) as [u|] eqn:E; [|discriminate].
  destruct u as [|c u]; [discriminate|]. injection H as <-. apply mget_in in E as (k' & I).
  rewrite Forall_forall in A. exact (A _ I).
Qed.
Lemma good_opt k k' m : In (bs k) attribute_names -> clean_meta m -> good_attrs (opt_attr k (meta_attr k' m)).
Proof.
  intros K C. destruct (meta_attr k' m) as [v|] eqn:E; [|constructor]. apply good_one; [exact K|]. eapply clean_meta_attr; eassumption.
Qed.

Lemma ok_inline i : clean_inline i -> ok (html_inline i).
Proof.
  induction i using inline_ind'; cbn [clean_inline html_inline].
  - intros [M C]. apply ok_element.
    + destruct v; listed.
    + apply good_app; [now apply good_class|]. destruct v; try constructor; [split; [listed|cleanb]|constructor].
    + apply ok_concat. rewrite all_Forall in C. rewrite Forall_forall in *. auto.
  - intros (M & T & C).
    assert (clean (ref_text v t)) as R by (destruct v; cbn [ref_text]; try exact T; apply clean_app; [cleanb|exact T]).
    assert (ok ([TOpen (bs "a") (class_attr m ++ [(bs "href", ref_text v t)])]
      ++ match l with [] => [TText (ref_text v t)] | _ => List.concat (map html_inline l) end ++ [TClose (bs "a")])) as K.
    { apply ok_element; [listed| |].
      - apply good_app; [now apply good_class|]. apply good_one; [listed|exact R].
      - destruct l as [|x l]; [now apply ok_text, clean_plain|]. apply ok_concat. rewrite all_Forall in C. rewrite Forall_forall in *. auto. }
    destruct v; try exact K. apply ok_empty; [listed|]. apply good_app; [now apply good_class|]. apply good_one; [listed|exact T].
  - apply ok_text.
  - intros _. apply ok_empty; [listed|constructor].
Qed.
Lemma ok_inlines l : all clean_inline l -> ok (html_inlines l).
Proof. rewrite all_Forall. intros C. apply ok_concat. eapply Forall_impl; [|exact C]. apply ok_inline. Qed.

Lemma ok_leaf n l m : all clean_inline l -> clean_meta m -> ok (html_leaf n l m).
Proof.
  intros L M. pose proof (good_class _ M) as C. pose proof (ok_inlines _ L) as K.
  destruct n; cbn [html_leaf]; try (apply ok_tag; [listed| |exact K]); try exact C; try exact K.
  - apply good_app; [exact C|]. apply good_opt; [listed|exact M].
  - apply good_app; [exact C|]. apply good_one; [listed|cleanb].
Qed.

(** ** Tables: rows are closed and opened between cells *)
Lemma clean_cell k idx : Forall clean_block k -> all clean_inline (cell_inlines k idx).
Proof.
  intros F. unfold cell_inlines. destruct (nth_error k idx) as [[[] m kk loc]|] eqn:E; try exact I;
    (apply nth_error_In in E; rewrite Forall_forall in F; exact (proj1 (F _ E))).
Qed.
Lemma ok_cell t k idx : In (bs t) elements -> Forall clean_block k -> ok (html_cell t k idx).
Proof. intros T F. apply ok_tag; [exact T|constructor|]. apply ok_inlines. now apply clean_cell. Qed.
Lemma ok_body cols k num idxs : Forall clean_block k -> forall l body, html_body_cells cols k num idxs = Ok l -> ok body ->
  ok ([TOpen (bs "tr") []] ++ body ++ l ++ [TClose (bs "tr")]).
Proof.
  intros F. induction idxs as [|idx idxs IH]; intros l body H B; cbn [html_body_cells] in H.
  - okinj H. apply ok_element; [listed|constructor|exact B].
  - apply bind_ok in H as (brk & E & H). apply bind_ok in H as (rest & E' & H). okinj H.
    assert (ok (body ++ html_cell "td" k idx)) as B' by (apply ok_app; [exact B|apply ok_cell; [listed|exact F]]).
    destruct brk.
    + replace ([TOpen (bs "tr") []] ++ body ++ (html_cell "td" k idx ++ [TClose (bs "tr"); TOpen (bs "tr") []] ++ rest) ++ [TClose (bs "tr")])
        with (([TOpen (bs "tr") []] ++ (body ++ html_cell "td" k idx) ++ [TClose (bs "tr")])
              ++ ([TOpen (bs "tr") []] ++ [] ++ rest ++ [TClose (bs "tr")])).
      2:{ rewrite <- !app_assoc. reflexivity. }
      apply ok_app; [apply ok_element; [listed|constructor|exact B']|]. apply IH; [exact E'|apply ok_nil].
    + rewrite app_nil_l. replace ([TOpen (bs "tr") []] ++ body ++ (html_cell "td" k idx ++ rest) ++ [TClose (bs "tr")])
        with ([TOpen (bs "tr") []] ++ (body ++ html_cell "td" k idx) ++ rest ++ [TClose (bs "tr")]) by now rewrite <- !app_assoc.
      now apply IH.
Qed.
Lemma ok_table w m k l : Forall clean_block k -> html_table w m k = Ok l -> ok l.
Proof.
  intros F H. unfold html_table in H. destruct m as [md|]; [|discriminate]. destruct (mget (bs "cols") (m_attrs md)) as [cv|]; [|discriminate].
  cbv zeta in H. destruct (_ || _) in H; [discriminate|]. apply bind_ok in H as (body & E & H). okinj H.
  pose proof (ok_body _ _ _ _ F _ [] E ok_nil) as B. rewrite app_nil_l in B.
  set (rows := [TOpen (bs "tr") []] ++ body ++ [TClose (bs "tr")]) in *.
  match goal with |- ok ([TOpen (bs "table") []] ++ ?h ++ _) => set (hd := h) end.
  destruct (memb (bs "header") (m_options md)) eqn:Eh.
  - subst hd. replace (_ ++ _) with ([TOpen (bs "table") []] ++ (html_tag "thead" [] (List.concat (map (html_cell "th" k) (seq 0 (Z.to_nat (tera_int w cv)))))
      ++ ([TOpen (bs "tbody") []] ++ rows ++ [TClose (bs "tbody")])) ++ [TClose (bs "table")]).
    2:{ unfold rows. rewrite <- !app_assoc. reflexivity. }
    apply ok_element; [listed|constructor|]. apply ok_app.
    + apply ok_tag; [listed|constructor|]. apply ok_concat. apply Forall_forall. intros idx _. apply ok_cell; [listed|exact F].
    + apply ok_element; [listed|constructor|exact B].
  - subst hd. cbn [app]. replace (_ :: _) with ([TOpen (bs "table") []] ++ rows ++ [TClose (bs "table")]).
    2:{ unfold rows. rewrite <- !app_assoc. reflexivity. }
    apply ok_element; [listed|constructor|exact B].
Qed.

(** ** Blocks *)
Lemma ok_title h : clean_head h -> ok (html_title h).
Proof.
  destruct h as [id [|x t] lv| | | | | | | |n v d [|x t]|]; cbn [clean_head html_title]; intros C; try apply ok_nil.
  - apply ok_tag; [listed|constructor|now apply ok_inlines].
  - destruct n; (apply ok_tag; [listed|constructor|now apply ok_inlines]).
Qed.
Lemma ok_image h m : clean_head h -> clean_meta m -> ok (html_image h m).
Proof.
  destruct h as [| | | | | |t cap| | |]; cbn [clean_head html_image]; intros C M; try apply ok_nil. destruct C as [T C].
  apply ok_app.
  - apply ok_empty; [listed|]. apply good_app; [apply good_one; [listed|exact T]|apply good_opt; [listed|exact M]].
  - destruct cap; [apply ok_nil|]. apply ok_tag; [listed|constructor|now apply ok_inlines].
Qed.
Lemma ok_principal h : clean_head h -> ok (html_principal h).
Proof.
  destruct h as [| |mk [|x p]| |t [|x p]| | | | |l]; cbn [clean_head html_principal]; intros C; try apply ok_nil.
  - apply ok_tag; [listed|constructor|now apply ok_inlines].
  - apply ok_tag; [listed|constructor|now apply ok_inlines].
  - now apply ok_inlines.
Qed.
Lemma ok_terms h : clean_head h -> ok (html_terms h).
Proof.
  destruct h as [| | | |[|x t] p| | | | |]; cbn [clean_head html_terms]; intros C; try apply ok_nil.
  apply ok_tag; [listed|constructor|now apply ok_inlines].
Qed.
Lemma ok_attribution m : clean_meta m -> ok (html_attribution m).
Proof.
  intros M. unfold html_attribution. destruct (meta_attr "attribution" m) as [a|] eqn:E; [|apply ok_nil].
  apply ok_tag; [listed|apply good_one; [listed|cleanb]|]. apply ok_app; [apply ok_text, clean_plain; eapply clean_meta_attr; eassumption|].
  destruct (meta_attr "citation" m) as [c|] eqn:E'; [|apply ok_nil].
  apply (ok_app [TText (bs ", ")]); apply ok_text, clean_plain; [cleanb|eapply clean_meta_attr; eassumption].
Qed.
Lemma ok_block w b : forall skip l, clean_block b -> html_block w skip b = Ok l -> ok l.
Proof.
  induction b as [h m k loc IH] using block_ind'. intros skip l (H & M & K) E. rewrite all_Forall in K. cbn [html_block] in E.
  assert (forall skip l, (fix go (skip : bool) (l : list block) : result (list piece) :=
        match l with
        | [] => Ok []
        | x :: r => let* p := html_block w skip x in let* q := go skip r in Ok (p ++ q)
        end) skip k = Ok l -> ok l) as G.
  { clear E. induction k as [|x k IHk]; intros s r E; [okinj E; apply ok_nil|].
    inversion IH. inversion K. subst. apply bind_ok in E as (p & E1 & E). apply bind_ok in E as (q & E2 & E). okinj E.
    apply ok_app; eauto. }
  assert (forall skip q tag, In (bs tag) elements -> ok q ->
    good_attrs (class_attr m ++ opt_attr "id" (block_id_attr h m) ++ opt_attr "data-type" (block_data_type h)) ->
    ok (html_terms h ++ (if skip : bool then html_title h ++ html_image h m ++ html_principal h ++ q ++ html_attribution m
        else html_tag tag (class_attr m ++ opt_attr "id" (block_id_attr h m) ++ opt_attr "data-type" (block_data_type h))
          (html_title h ++ html_image h m ++ html_principal h ++ q ++ html_attribution m)))) as B.
  { intros s q tag T Q A. apply ok_app; [now apply ok_terms|].
    assert (ok (html_title h ++ html_image h m ++ html_principal h ++ q ++ html_attribution m)) as Y.
    { repeat apply ok_app; [now apply ok_title|now apply ok_image|now apply ok_principal|exact Q|now apply ok_attribution]. }
    destruct s; [exact Y|]. now apply ok_tag. }
  assert (good_attrs (class_attr m ++ opt_attr "id" (block_id_attr h m) ++ opt_attr "data-type" (block_data_type h))) as A.
  { apply good_app; [now apply good_class|]. apply good_app.
    - destruct h; try constructor. apply good_opt; [listed|exact M].
    - destruct h as [| | | | | | | |[] [[]|] d t|]; try apply Forall_nil; (apply good_one; [listed|cleanb]). }
  destruct h as [id t lv|v|mk p| |t p|[]|t c|n f d i|n v d t|i]; cbn [html_block] in E.
  - apply bind_ok in E as (q & E1 & E). okinj E. apply ok_tag; [listed| |].
    + apply good_app; [apply good_one; [listed|apply clean_app; [cleanb|apply clean_dec]]|].
      apply good_app; [now apply good_class|]. apply good_opt; [listed|exact M].
    + apply ok_app; [now apply ok_title|]. apply ok_app; [now apply ok_attribution|]. now apply (G false).
  - apply bind_ok in E as (q & E1 & E). okinj E. apply B; [destruct v; listed|now apply (G false)|exact A].
  - apply bind_ok in E as (q & E1 & E). okinj E. apply B; [listed|now apply (G false)|exact A].
  - apply bind_ok in E as (q & E1 & E). okinj E. apply B; [listed|now apply (G false)|exact A].
  - apply bind_ok in E as (q & E1 & E). okinj E. apply B; [listed|now apply (G false)|exact A].
  - okinj E. apply ok_tag; [listed|apply good_one; [listed|cleanb]|apply ok_nil].
  - okinj E. apply ok_empty; [listed|constructor].
  - cbn [bind] in E. okinj E. apply B; [listed|apply ok_nil|exact A].
  - okinj E. now apply ok_leaf.
  - destruct n; try (eapply ok_table; eassumption); try (destruct v as [v|]; [|discriminate E]);
      (apply bind_ok in E as (q & E1 & E); okinj E; apply B; [listed|exact (G _ _ E1)|exact A]).
  - cbn [bind] in E. okinj E. apply B; [listed|apply ok_nil|exact A].
Qed.
Lemma ok_blocks w bl : forall l, all clean_block bl -> html_blocks w bl = Ok l -> ok l.
Proof.
  induction bl as [|b bl IH]; intros l C E; [cbn [html_blocks] in E; okinj E; apply ok_nil|]. destruct C as [C1 C2]. cbn [html_blocks] in E.
  apply bind_ok in E as (p & E1 & E). apply bind_ok in E as (q & E2 & E). okinj E.
  apply ok_app; [eapply ok_block; eassumption|now apply IH].
Qed.
Lemma html_well_formed w a s : clean_graph a -> render_htmlbook w a = Ok s -> html s.
Proof.
  intros [C H] E. apply bind_ok in E as (l & E & K). okinj K. apply bind_ok in E as (body & E & K). okinj K.
  apply (ok_blocks _ _ _ C) in E.
  change [TText (bs "<!DOCTYPE html>"); TOpen (bs "html") [(bs "lang", bs "en")]]
    with ([TText (bs "<!DOCTYPE html>")] ++ [TOpen (bs "html") [(bs "lang", bs "en")]]). rewrite <- app_assoc.
  apply ok_app; [apply ok_unclosed; listed|]. rewrite (app_assoc (html_tag "head" _ _)).
  apply ok_element; [listed|apply good_one; [listed|cleanb]|]. apply ok_app; [|apply ok_tag; [listed|constructor|exact E]].
  apply ok_tag; [listed|constructor|].
  apply ok_app; [apply (ok_app [_] [_]); apply ok_unclosed; listed|]. apply ok_tag; [listed|constructor|].
  destruct (a_header a) as [h|]; [now apply ok_inlines|apply ok_nil].
Qed.

(** ** The grammar is well nested *)
Lemma nests_text s open r : plain s -> nests None open (s ++ r) = nests None open r.
Proof.
  induction 1 as [|c s [L G] _ IH]; [reflexivity|]. cbn [app nests].
  apply Ascii.eqb_neq in L, G. now rewrite L, G.
Qed.
Lemma nests_tag u : plain u -> forall t open r, nests (Some t) open (u ++ ">" :: r)
  = match tag_effect (rev t ++ u) open with Some o => nests None o r | None => false end.
Proof.
  induction 1 as [|c u [L G] _ IH]; intros t open r; cbn [app nests].
  - now rewrite app_nil_r.
  - apply Ascii.eqb_neq in L, G. rewrite L, G, IH. cbn [rev]. now rewrite <- app_assoc.
Qed.
Lemma nests_lt u open r : plain u -> nests None open ("<" :: u ++ ">" :: r)
  = match tag_effect u open with Some o => nests None o r | None => false end.
Proof. intros U. change (nests (Some []) open (u ++ ">" :: r) = match tag_effect u open with Some o => nests None o r | None => false end). now rewrite nests_tag. Qed.
Lemma attributes_plain a : attributes a -> plain a.
Proof.
  induction 1 as [|k v r K V _ IH]; [constructor|].
  assert (plain k) as P by (revert K; vm_compute; intros K; repeat destruct K as [<-|K]; try destruct K; repeat constructor; discriminate).
  constructor; [split; discriminate|]. apply Forall_app. split; [exact P|]. constructor; [split; discriminate|].
  constructor; [split; discriminate|]. apply Forall_app. split; [now apply clean_plain|]. constructor; [split; discriminate|exact IH].
Qed.
Lemma attributes_end a : attributes a -> a = [] \/ exists b, a = " " :: b ++ ["034"].
Proof.
  induction 1 as [|k v r K V _ IH]; [now left|]. right. destruct IH as [->|(b & ->)].
  - exists (k ++ "=" :: "034" :: v). now rewrite <- app_assoc.
  - exists (k ++ "=" :: "034" :: v ++ "034" :: " " :: b). rewrite <- app_assoc. cbn [app]. now rewrite <- app_assoc.
Qed.
Lemma last_snoc {A} (l : list A) x d : last (l ++ [x]) d = x.
Proof. induction l as [|y l IH]; [reflexivity|]. change (last (y :: l ++ [x]) d = x). destruct l as [|z l]; [reflexivity|]. exact IH. Qed.
Lemma open_effect n a open : In n elements -> attributes a -> tag_effect (n ++ a) open = Some (n :: open).
Proof.
  intros N A. apply attributes_end in A as [->|(b & ->)].
  - rewrite app_nil_r. revert N. vm_compute. intros N. repeat destruct N as [<-|N]; try destruct N; reflexivity.
  - assert (forall x : bytes, last (x ++ " " :: b ++ ["034"]) " " = "034") as L.
    { intros x. change (" " :: b ++ ["034"]) with ((" " :: b) ++ ["034"]). rewrite app_assoc. apply last_snoc. }
    specialize (L n). unfold elements in N. cbn [map] in N.
    repeat destruct N as [<-|N]; try destruct N; unfold tag_effect; cbv beta iota delta [bs String.list_ascii_of_string app] in *;
      rewrite L; reflexivity.
Qed.
Lemma element_plain n : In n (elements ++ empty_elements) -> plain n.
Proof. vm_compute. intros N. repeat destruct N as [<-|N]; try destruct N; repeat constructor; discriminate. Qed.
Lemma close_effect n open : tag_effect ("/" :: n) (n :: open) = Some open.
Proof. cbn. now rewrite beqb_refl. Qed.
Lemma empty_effect n a gap open : In n empty_elements -> attributes a -> tag_effect (n ++ a ++ gap ++ bs "/") open = Some open.
Proof.
  intros N A. assert (forall x : bytes, last (x ++ a ++ gap ++ bs "/") " " = "/") as L.
  { intros x. change (bs "/") with ["/"]. rewrite !app_assoc. apply last_snoc. }
  specialize (L n). unfold empty_elements in N. cbn [map] in N.
  repeat destruct N as [<-|N]; try destruct N; unfold tag_effect; cbv beta iota delta [bs String.list_ascii_of_string app] in *;
      rewrite L; now rewrite orb_true_r.
Qed.
Lemma nests_html s : html s -> forall open r, nests None open (s ++ r) = nests None open r.
Proof.
  induction 1 as [|a b _ IHa _ IHb|s P|n a s N A _ IH|n a gap N A G|s U]; intros open r.
  - reflexivity.
  - rewrite <- app_assoc. now rewrite IHa, IHb.
  - now apply nests_text.
  - assert (plain n) as P by (apply element_plain, in_or_app; now left).
    cbn [app]. rewrite <- !app_assoc. cbn [app]. rewrite <- !app_assoc. cbn [app]. rewrite app_assoc.
    rewrite nests_lt by (apply Forall_app; split; [exact P|now apply attributes_plain]).
    rewrite open_effect by assumption. rewrite IH. rewrite <- app_assoc.
    change ("/" :: n ++ [">"] ++ r) with (("/" :: n) ++ ">" :: r). rewrite nests_lt by (constructor; [split; discriminate|exact P]).
    now rewrite close_effect.
  - assert (plain n) as P by (apply element_plain, in_or_app; now right).
    change (bs "/>") with (bs "/" ++ [">"]). replace (("<" :: n ++ a ++ gap ++ bs "/" ++ [">"]) ++ r) with ("<" :: (n ++ a ++ gap ++ bs "/") ++ ">" :: r)
      by (cbn [app]; now rewrite <- !app_assoc).
    rewrite nests_lt; [now rewrite empty_effect|]. apply Forall_app. split; [exact P|]. apply Forall_app.
    split; [now apply attributes_plain|]. destruct G as [-> | ->]; repeat constructor; discriminate.
  - unfold unclosed in U. cbn [map] in U. repeat destruct U as [<-|U]; try destruct U; reflexivity.
Qed.
Lemma html_nested w a s : clean_graph a -> render_htmlbook w a = Ok s -> well_nested s = true.
Proof.
  intros C E. apply html_well_formed in E; [|exact C]. unfold well_nested. rewrite <- (app_nil_r s). now rewrite nests_html.
Qed.

(** ** Nothing is escaped *)
Lemma html_unescaped w s loc loc' : exists before after,
  render_htmlbook w (mkAsg None None [] [] [Blk (HLeaf NParagraph FmParagraph None [ILit LText false s loc]) None [] loc'] [])
  = Ok (before ++ s ++ after).
Proof.
  exists (bs "<!DOCTYPE html><html lang=""en""><head><meta charset=""UTF-8""><meta name=""viewport"" content=""width=device-width, initial-scale=1""><title></title></head><body><p>"),
    (bs "</p></body></html>").
  reflexivity.
Qed.
