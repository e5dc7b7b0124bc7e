(** * The text of the HTMLBook output *)
From Verif Require Import Base World Location Token Meta Inline Block Asg Json Html SpecScan SpecHtml SpecHtmlText
  ScanLemmas TreeInd HtmlProofs.
Local Open Scope char_scope.
Local Open Scope nat_scope.

Lemma visible_plain s r : plain s -> visible false (s ++ r) = s ++ visible false r.
Proof.
  induction 1 as [|c s [L G] _ IH]; [reflexivity|]. cbn [app visible]. apply Ascii.eqb_neq in L. now rewrite L, IH.
Qed.
Lemma visible_inside u r : plain u -> visible true (u ++ ">" :: r) = visible false r.
Proof.
  induction 1 as [|c s [L G] _ IH]; [reflexivity|]. cbn [app visible]. apply Ascii.eqb_neq in G. now rewrite G.
Qed.
Lemma visible_tag u r : plain u -> visible false ("<" :: u ++ ">" :: r) = visible false r.
Proof. apply visible_inside. Qed.

Definition shows (l : list piece) (t : bytes) : Prop := forall r, visible false (pieces_text l ++ r) = t ++ visible false r.
Lemma shows_nil : shows [] [].
Proof. intros r. reflexivity. Qed.
Lemma shows_app l t l' t' : shows l t -> shows l' t' -> shows (l ++ l') (t ++ t').
Proof. intros A B r. now rewrite text_app, <- !app_assoc, A, B. Qed.
Lemma shows_then l t l' : shows l t -> shows l' [] -> shows (l ++ l') t.
Proof. intros A B. rewrite <- (app_nil_r t). now apply shows_app. Qed.
Lemma shows_text s : plain s -> shows [TText s] s.
Proof. intros P r. unfold pieces_text. cbn. rewrite app_nil_r. now apply visible_plain. Qed.
Lemma shows_open t a : In t elements -> good_attrs a -> shows [TOpen t a] [].
Proof.
  intros T A r. unfold pieces_text. cbn [map List.concat piece_text]. rewrite app_nil_r.
  change (bs "<") with ["<"]. change (bs ">") with [">"]. cbn [app]. rewrite <- !app_assoc. cbn [app]. rewrite app_assoc.
  apply visible_tag. apply Forall_app. split.
  - apply element_plain, in_or_app. now left.
  - now apply attributes_plain, good_attributes.
Qed.
Lemma shows_close t : In t elements -> shows [TClose t] [].
Proof.
  intros T r. unfold pieces_text. cbn [map List.concat piece_text]. rewrite app_nil_r.
  change (bs "</") with ["<"; "/"]. change (bs ">") with [">"]. cbn [app]. rewrite <- !app_assoc. cbn [app].
  apply (visible_tag ("/" :: t)). constructor; [split; discriminate|]. apply element_plain, in_or_app. now left.
Qed.
Lemma shows_empty g t a : In t empty_elements -> good_attrs a -> shows [TEmpty g t a] [].
Proof.
  intros T A r. unfold pieces_text. cbn [map List.concat piece_text]. rewrite app_nil_r.
  change (bs "<") with ["<"]. cbn [app].
  replace ((t ++ attrs_text a ++ bs (if g then " />" else "/>")) ++ r) with ((t ++ attrs_text a ++ bs (if g then " /" else "/")) ++ ">" :: r)
    by (destruct g; now rewrite <- !app_assoc).
  apply visible_tag. apply Forall_app. split; [apply element_plain, in_or_app; now right|]. apply Forall_app.
  split; [now apply attributes_plain, good_attributes|]. destruct g; repeat constructor; discriminate.
Qed.
Lemma shows_element t a l s : In t elements -> good_attrs a -> shows l s -> shows ([TOpen t a] ++ l ++ [TClose t]) s.
Proof.
  intros T A L. rewrite <- (app_nil_l s), <- (app_nil_r s). apply shows_app; [now apply shows_open|].
  apply shows_app; [exact L|now apply shows_close].
Qed.
Lemma shows_tag t a l s : In (bs t) elements -> good_attrs a -> shows l s -> shows (html_tag t a l) s.
Proof. apply shows_element. Qed.
Lemma shows_concat {A} (f : A -> list piece) (g : A -> bytes) l : Forall (fun x => shows (f x) (g x)) l ->
  shows (List.concat (map f l)) (List.concat (map g l)).
Proof. induction 1; cbn; [apply shows_nil|now apply shows_app]. Qed.

Lemma shows_inline i : clean_inline i -> shows (html_inline i) (inline_text i).
Proof.
  induction i using inline_ind'; cbn [clean_inline html_inline inline_text].
  - intros [M C]. apply shows_element.
    + destruct v; listed.
    + apply good_app; [now apply good_class|]. destruct v; try constructor; [split; [listed|cleanb]|constructor].
    + apply shows_concat. rewrite all_Forall in C. rewrite Forall_forall in *. auto.
  - intros (M & T & C).
    assert (clean (ref_text v t)) as R by (destruct v; cbn [ref_text]; try exact T; apply clean_app; [cleanb|exact T]).
    assert (shows ([TOpen (bs "a") (class_attr m ++ [(bs "href", ref_text v t)])]
      ++ match l with [] => [TText (ref_text v t)] | _ => List.concat (map html_inline l) end ++ [TClose (bs "a")])
      match l with [] => ref_text v t | _ => List.concat (map inline_text l) end) as K.
    { apply shows_element; [listed| |].
      - apply good_app; [now apply good_class|]. apply good_one; [listed|exact R].
      - destruct l as [|x l]; [now apply shows_text, clean_plain|]. apply shows_concat. rewrite all_Forall in C. rewrite Forall_forall in *. auto. }
    destruct v; try (destruct l; exact K). apply shows_empty; [listed|]. apply good_app; [now apply good_class|]. apply good_one; [listed|exact T].
  - apply shows_text.
  - intros _. apply shows_empty; [listed|constructor].
Qed.
Lemma shows_inlines l : all clean_inline l -> shows (html_inlines l) (inlines_text l).
Proof. rewrite all_Forall. intros C. apply shows_concat. eapply Forall_impl; [|exact C]. apply shows_inline. Qed.

Lemma shows_leaf n l m : all clean_inline l -> clean_meta m -> shows (html_leaf n l m) (inlines_text l).
Proof.
  intros L M. pose proof (good_class _ M) as C. pose proof (shows_inlines _ L) as K.
  destruct n; cbn [html_leaf]; try (apply shows_tag; [listed| |exact K]); try exact C; try exact K.
  - apply good_app; [exact C|]. apply good_opt; [listed|exact M].
  - apply good_app; [exact C|]. apply good_one; [listed|cleanb].
Qed.

(** ** Tables *)
Lemma shows_cell t k idx : In (bs t) elements -> Forall clean_block k -> shows (html_cell t k idx) (inlines_text (cell_inlines k idx)).
Proof. intros T F. apply shows_tag; [exact T|constructor|]. apply shows_inlines. now apply clean_cell. Qed.
Lemma shows_body cols k num idxs : Forall clean_block k -> forall l, html_body_cells cols k num idxs = Ok l ->
  shows l (List.concat (map (fun i => inlines_text (cell_inlines k i)) idxs)).
Proof.
  intros F. induction idxs as [|idx idxs IH]; intros l H; cbn [html_body_cells] in H.
  - okinj H. apply shows_nil.
  - apply bind_ok in H as (brk & E & H). apply bind_ok in H as (rest & E' & H). okinj H.
    cbn [map List.concat]. apply shows_app; [apply shows_cell; [listed|exact F]|]. rewrite <- (app_nil_l (List.concat _)).
    apply shows_app; [|now apply IH]. destruct brk; [|apply shows_nil].
    apply (shows_app [TClose (bs "tr")] [] [TOpen (bs "tr") []] []); [apply shows_close; listed|apply shows_open; [listed|constructor]].
Qed.
Lemma cells_text k : Forall cell k -> forall n, List.concat (map (fun i => inlines_text (cell_inlines k i)) (seq n (List.length k - n)))
  = List.concat (map block_text (skipn n k)).
Proof.
  intros C. assert (forall m n, m = List.length k - n -> List.concat (map (fun i => inlines_text (cell_inlines k i)) (seq n m))
    = List.concat (map block_text (skipn n k))) as G.
  { induction m as [|m IH]; intros n E.
    - cbn [seq map List.concat]. rewrite skipn_all2 by lia. reflexivity.
    - cbn [seq map List.concat]. rewrite IH by lia. unfold cell_inlines at 1. destruct (nth_error k n) as [b|] eqn:N.
      2:{ apply nth_error_None in N. lia. }
      assert (skipn n k = b :: skipn (S n) k) as ->.
      { clear -N. revert k N. induction n as [|n IH]; intros [|x k] N; try discriminate; cbn in *; [now injection N as ->|]. now apply IH. }
      cbn [map List.concat]. f_equal. rewrite Forall_forall in C. apply nth_error_In in N. apply C in N.
      destruct b as [[] m0 [|] loc]; cbn [cell] in N; try contradiction. cbn [block_text head_text map List.concat]. rewrite N. now rewrite !app_nil_r. }
  intros n. now apply G.
Qed.
Lemma cells_text_head k : Forall cell k -> forall n, n <= List.length k ->
  List.concat (map (fun i => inlines_text (cell_inlines k i)) (seq 0 n)) ++ List.concat (map block_text (skipn n k))
  = List.concat (map block_text k).
Proof.
  intros C n L. rewrite <- (cells_text k C). pose proof (cells_text k C 0) as E. rewrite Nat.sub_0_r in E. cbn [skipn] in E. rewrite <- E.
  replace (List.length k) with (n + (List.length k - n)) at 2 by lia. now rewrite seq_app, map_app, concat_app.
Qed.
Lemma shows_table w m k l : Forall clean_block k -> Forall cell k -> html_table w m k = Ok l ->
  shows l (List.concat (map block_text k)).
Proof.
  intros F C H. unfold html_table in H. destruct m as [md|]; [|discriminate]. destruct (mget (bs "cols") (m_attrs md)) as [cv|]; [|discriminate].
  cbv zeta in H. destruct (_ || _) eqn:R in H; [discriminate|]. apply bind_ok in H as (body & E & H). okinj H.
  apply shows_body in E; [|exact F]. rewrite cells_text in E by exact C. apply orb_false_iff in R as [R1 R2].
  apply Z.ltb_ge in R1, R2.
  assert (shows ([TOpen (bs "tr") []] ++ body ++ [TClose (bs "tr")])
    (List.concat (map block_text (skipn (Z.to_nat (if memb (bs "header") (m_options md) then tera_int w cv else 0%Z)) k)))) as B
    by (apply shows_element; [listed|constructor|exact E]).
  match goal with |- shows ([TOpen (bs "table") []] ++ ?h ++ ?a ++ ?b ++ ?c ++ ?d ++ ?e) _ =>
    replace ([TOpen (bs "table") []] ++ h ++ a ++ b ++ c ++ d ++ e) with ([TOpen (bs "table") []] ++ (h ++ (a ++ b ++ c) ++ d) ++ e)
      by (rewrite <- !app_assoc; reflexivity) end.
  apply shows_element; [listed|constructor|].
  destruct (memb (bs "header") (m_options md)).
  - assert (Z.to_nat (tera_int w cv) <= List.length k) as L by lia.
    rewrite <- (cells_text_head k C _ L). apply shows_app.
    + apply shows_then; [|apply shows_open; [listed|constructor]].
      apply shows_tag; [listed|constructor|]. apply shows_concat. apply Forall_forall. intros i _. apply shows_cell; [listed|exact F].
    + apply shows_then; [exact B|apply shows_close; listed].
  - cbn [app]. rewrite app_nil_r. exact B.
Qed.

(** ** Blocks *)
Lemma shows_title h : clean_head h -> shows (html_title h)
  match h with HSection _ l _ | HParent _ _ _ l => inlines_text l | _ => [] end.
Proof.
  destruct h as [id [|x t] lv| | | | | | | |n v d [|x t]|]; cbn [clean_head html_title]; intros C; try apply shows_nil.
  - apply shows_tag; [listed|constructor|now apply shows_inlines].
  - destruct n; (apply shows_tag; [listed|constructor|now apply shows_inlines]).
Qed.
Lemma shows_image h m : clean_head h -> clean_meta m -> shows (html_image h m)
  match h with HMacro _ l => inlines_text l | _ => [] end.
Proof.
  destruct h as [| | | | | |t cap| | |]; cbn [clean_head html_image]; intros C M; try apply shows_nil. destruct C as [T C].
  rewrite <- (app_nil_l (inlines_text cap)). apply shows_app.
  - apply shows_empty; [listed|]. apply good_app; [apply good_one; [listed|exact T]|apply good_opt; [listed|exact M]].
  - destruct cap; [apply shows_nil|]. apply shows_tag; [listed|constructor|now apply shows_inlines].
Qed.
Lemma shows_principal h : clean_head h -> shows (html_principal h)
  match h with HListItem _ l | HDListItem _ l | HCell l => inlines_text l | _ => [] end.
Proof.
  destruct h as [| |mk [|x p]| |t [|x p]| | | | |l]; cbn [clean_head html_principal]; intros C; try apply shows_nil.
  - apply shows_tag; [listed|constructor|now apply shows_inlines].
  - apply shows_tag; [listed|constructor|]. now apply shows_inlines.
  - now apply shows_inlines.
Qed.
Lemma shows_terms h : clean_head h -> shows (html_terms h) match h with HDListItem l _ => inlines_text l | _ => [] end.
Proof.
  destruct h as [| | | |[|x t] p| | | | |]; cbn [clean_head html_terms]; intros C; try apply shows_nil.
  apply shows_tag; [listed|constructor|now apply shows_inlines].
Qed.
Lemma value_meta k m : meta_attr k (Some m) = match value k m with [] => None | v => Some v end.
Proof.
  cbn [meta_attr]. unfold value. induction (m_attrs m) as [|[k' v] l IH]; [reflexivity|]. cbn [mget find fst].
  destruct (beqb (bs k) k'); [now destruct v|exact IH].
Qed.
Lemma shows_attribution m : clean_meta m -> shows (html_attribution m) (credit m).
Proof.
  intros M. unfold html_attribution. destruct m as [x|]; [|apply shows_nil]. unfold credit.
  pose proof (clean_meta_attr "attribution" (Some x)) as CA. pose proof (clean_meta_attr "citation" (Some x)) as CC.
  rewrite !value_meta in *. destruct (value "attribution" x) as [|a0 a]; [apply shows_nil|].
  specialize (CA _ M eq_refl). apply clean_plain in CA.
  destruct (value "citation" x) as [|c0 c].
  - apply shows_tag; [listed|apply good_one; [listed|cleanb]|]. rewrite app_nil_r. now apply shows_text.
  - specialize (CC _ M eq_refl). apply clean_plain in CC.
    apply shows_tag; [listed|apply good_one; [listed|cleanb]|]. apply shows_app; [now apply shows_text|].
    apply (shows_app [TText _] _ [TText _]); apply shows_text; [apply clean_plain; cleanb|exact CC].
Qed.
Lemma shows_block w b : forall skip l, clean_block b -> presentable b -> html_block w skip b = Ok l -> shows l (block_text b).
Proof.
  induction b as [h m k loc IH] using block_ind'. intros skip l (H & M & K) P E. rewrite all_Forall in K. cbn [html_block] in E.
  assert (fold_right and True (map presentable k) -> forall skip l, (fix go (skip : bool) (l : list block) : result (list piece) :=
        match l with
        | [] => Ok []
        | x :: r => let* p := html_block w skip x in let* q := go skip r in Ok (p ++ q)
        end) skip k = Ok l -> shows l (List.concat (map block_text k))) as G.
  { clear E P. intros P. induction k as [|x k IHk]; intros s r E; [okinj E; apply shows_nil|].
    inversion IH. inversion K. subst. destruct P as [P1 P2]. apply bind_ok in E as (p & E1 & E). apply bind_ok in E as (q & E2 & E). okinj E.
    apply shows_app; eauto. }
  assert (good_attrs (class_attr m ++ opt_attr "id" (block_id_attr h m) ++ opt_attr "data-type" (block_data_type h))) as A.
  { apply good_app; [now apply good_class|]. apply good_app.
    - destruct h; try constructor. apply good_opt; [listed|exact M].
    - destruct h as [| | | | | | | |[] [[]|] d t|]; try apply Forall_nil; (apply good_one; [listed|cleanb]). }
  assert (forall skip q t tag, In (bs tag) elements -> shows q t -> match h with HSection _ _ _ | HBreak _ | HLeaf _ _ _ _ => False | _ => True end ->
    shows (html_terms h ++ (if skip : bool then html_title h ++ html_image h m ++ html_principal h ++ q ++ html_attribution m
        else html_tag tag (class_attr m ++ opt_attr "id" (block_id_attr h m) ++ opt_attr "data-type" (block_data_type h))
          (html_title h ++ html_image h m ++ html_principal h ++ q ++ html_attribution m)))
     (head_text h ++ t ++ credit m)) as B.
  { intros s q t tag T Q N.
    pose proof (shows_terms h H) as S1. pose proof (shows_title h H) as S2. pose proof (shows_image h m H M) as S3.
    pose proof (shows_principal h H) as S4. pose proof (shows_attribution m M) as S5.
    assert (shows (html_title h ++ html_image h m ++ html_principal h ++ q ++ html_attribution m)
      (match h with HSection _ l _ | HParent _ _ _ l => inlines_text l | _ => [] end
       ++ match h with HMacro _ l => inlines_text l | _ => [] end
       ++ match h with HListItem _ l | HDListItem _ l | HCell l => inlines_text l | _ => [] end ++ t ++ credit m)) as Y.
    { apply shows_app; [exact S2|]. apply shows_app; [exact S3|]. apply shows_app; [exact S4|]. now apply shows_app. }
    replace (head_text h ++ t ++ credit m) with (match h with HDListItem l _ => inlines_text l | _ => [] end
      ++ match h with HSection _ l _ | HParent _ _ _ l => inlines_text l | _ => [] end
       ++ match h with HMacro _ l => inlines_text l | _ => [] end
       ++ match h with HListItem _ l | HDListItem _ l | HCell l => inlines_text l | _ => [] end ++ t ++ credit m)
      by (destruct h; try contradiction; cbn [head_text app]; rewrite <- ?app_assoc; reflexivity).
    apply shows_app; [exact S1|]. destruct s; [exact Y|]. now apply shows_tag. }
  destruct h as [id t lv|v|mk p| |t p|[]|t c|n f d i|n v d t|i]; cbn [html_block] in E.
  - apply bind_ok in E as (q & E1 & E). okinj E. cbn [block_text]. apply shows_tag; [listed| |].
    + apply good_app; [apply good_one; [listed|apply clean_app; [cleanb|apply clean_dec]]|].
      apply good_app; [now apply good_class|]. apply good_opt; [listed|exact M].
    + apply shows_app; [exact (shows_title _ H)|]. apply shows_app; [now apply shows_attribution|]. now apply (G P false).
  - apply bind_ok in E as (q & E1 & E). okinj E. apply B; [destruct v; listed|now apply (G P false)|exact I].
  - apply bind_ok in E as (q & E1 & E). okinj E. apply B; [listed|now apply (G P false)|exact I].
  - apply bind_ok in E as (q & E1 & E). okinj E. apply B; [listed|now apply (G P false)|exact I].
  - apply bind_ok in E as (q & E1 & E). okinj E. apply B; [listed|now apply (G P false)|exact I].
  - okinj E. destruct P as [-> P]. cbn [block_text head_text map List.concat app]. rewrite P.
    apply shows_tag; [listed|apply good_one; [listed|cleanb]|apply shows_nil].
  - okinj E. destruct P as [-> P]. cbn [block_text head_text map List.concat app]. rewrite P. apply shows_empty; [listed|constructor].
  - cbn [bind] in E. okinj E. rewrite P. apply (B skip [] []); [listed|apply shows_nil|exact I].
  - okinj E. destruct P as [-> P]. cbn [block_text head_text map List.concat app]. rewrite P, app_nil_r. now apply shows_leaf.
  - destruct n; try (destruct v as [v|]; [|discriminate E]); try (apply bind_ok in E as (q & E1 & E); okinj E; apply B; [listed|exact (G P _ _ E1)|exact I]).
    destruct P as (P1 & P2 & P3). cbn [block_text head_text]. rewrite P2, P3. cbn [app]. rewrite app_nil_r.
    eapply shows_table; eassumption.
  - cbn [bind] in E. okinj E. rewrite P. apply (B skip [] []); [listed|apply shows_nil|exact I].
Qed.
Lemma shows_blocks w bl : forall l, all clean_block bl -> Forall presentable bl -> html_blocks w bl = Ok l ->
  shows l (List.concat (map block_text bl)).
Proof.
  induction bl as [|b bl IH]; intros l C P E; [cbn [html_blocks] in E; okinj E; apply shows_nil|]. destruct C as [C1 C2]. inversion P. subst. cbn [html_blocks] in E.
  apply bind_ok in E as (p & E1 & E). apply bind_ok in E as (q & E2 & E). okinj E.
  cbn [map List.concat]. apply shows_app; [eapply shows_block; eassumption|now apply IH].
Qed.
Lemma shows_unclosed s : In (bs s) unclosed -> shows [TText (bs s)] [].
Proof.
  intros U. unfold unclosed in U. cbn [map] in U. repeat (destruct U as [U|U]; [rewrite <- U; intros r; reflexivity|]). destruct U.
Qed.
Lemma html_text_shown w a s : clean_graph a -> presentable_graph a -> render_htmlbook w a = Ok s ->
  visible false s = graph_text a.
Proof.
  intros [C H] P E. apply bind_ok in E as (l & E & K). okinj K. apply bind_ok in E as (body & E & K). okinj K.
  apply (shows_blocks _ _ _ C P) in E. unfold graph_text.
  match goal with |- visible false (pieces_text ?l) = ?t => assert (shows l t) as S end.
  2:{ specialize (S []). now rewrite !app_nil_r in S. }
  change [TText (bs "<!DOCTYPE html>"); TOpen (bs "html") [(bs "lang", bs "en")]]
    with ([TText (bs "<!DOCTYPE html>")] ++ [TOpen (bs "html") [(bs "lang", bs "en")]]). rewrite <- app_assoc.
  apply (shows_app _ []); [apply shows_unclosed; listed|]. rewrite (app_assoc (html_tag "head" _ _)).
  apply shows_element; [listed|apply good_one; [listed|cleanb]|]. apply shows_app; [|apply shows_tag; [listed|constructor|exact E]].
  apply shows_tag; [listed|constructor|].
  apply (shows_app _ []); [apply (shows_app [_] [] [_] []); apply shows_unclosed; listed|]. apply shows_tag; [listed|constructor|].
  destruct (a_header a) as [h|]; [now apply shows_inlines|apply shows_nil].
Qed.
