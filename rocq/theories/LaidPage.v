(** * The page of the templates, for every graph *)
From Verif Require SpecMeta SpecPage PageProofs ScriptHtml HtmlPage.
From Verif Require Import Base World Location Token Meta Inline Block Asg Json Html SpecJson TreeInd
  SpecScan SpecDoc SpecArticle SpecArticleHtml SpecScript SpecScriptHtml SpecHtmlPage SpecTemplates Tera Templates TeraProofs TemplateProofs LaidProofs LaidBlocks LaidKinds.
Local Open Scope char_scope.
Local Open Scope nat_scope.

Definition settles (P : nat -> Prop) : Prop := exists n, forall f, n <= f -> P f.
Lemma settles_all {A} (P : A -> nat -> Prop) l : Forall (fun x => settles (P x)) l -> settles (fun f => Forall (fun x => P x f) l).
Proof.
  induction 1 as [|x l (n & H) F (m & IH)]; [exists 0; constructor|].
  exists (Nat.max n m). intros f L. constructor; [apply H|apply IH]; lia.
Qed.
Lemma settles_and (P Q : nat -> Prop) : settles P -> settles Q -> settles (fun f => P f /\ Q f).
Proof. intros (n & H) (m & K). exists (Nat.max n m). intros f L. split; [apply H|apply K]; lia. Qed.
Lemma settles_next (P Q : nat -> Prop) : settles P -> (forall f, P f -> Q (S f)) -> settles Q.
Proof. intros (n & H) K. exists (S n). intros [|f] L; [lia|]. apply K, H. lia. Qed.
Lemma settles_impl (P Q : nat -> Prop) : settles P -> (forall f, P f -> Q f) -> settles Q.
Proof. intros (n & H) K. exists n. intros f L. now apply K, H. Qed.

Section Page.
Variable w : world.
Definition at_file (f : nat) (file : string) := call_macro w parsed f (bs file).
Lemma call_inline f v :
  at_file (S f) "inline.html.tera" (bs "self") (bs "process_inline") [(bs "inline", v)] = out [] (render_nodes w (at_file f "inline.html.tera") [(bs "inline", v)] inline_nodes)
  /\ forall here, In here ["htmlbook.html.tera"%string; "block.html.tera"%string; "leafblocks.html.tera"%string; "tables.html.tera"%string] ->
     at_file (S f) here (bs "inline_macros") (bs "process_inline") [(bs "inline", v)] = out [] (render_nodes w (at_file f "inline.html.tera") [(bs "inline", v)] inline_nodes).
Proof. split; [reflexivity|]. intros here [<-|[<-|[<-|[<-|[]]]]]; reflexivity. Qed.
Lemma inlines_self i : settles (fun f => inline_call (at_file f "inline.html.tera") "self" i).
Proof.
  induction i as [v o l m loc b F|v t l m loc F|n k v loc|loc] using inline_ind'.
  - refine (settles_next _ _ (settles_all _ l F) _). intros f H. unfold inline_call. rewrite (proj1 (call_inline f _)). apply inline_runs. exact H.
  - refine (settles_next _ _ (settles_all _ l F) _). intros f H. unfold inline_call. rewrite (proj1 (call_inline f _)). apply inline_runs. exact H.
  - exists 1. intros [|f] L; [lia|]. unfold inline_call. rewrite (proj1 (call_inline f _)). apply inline_runs. constructor.
  - exists 1. intros [|f] L; [lia|]. unfold inline_call. rewrite (proj1 (call_inline f _)). apply inline_runs. constructor.
Qed.
Lemma inlines_from here i : In here ["htmlbook.html.tera"%string; "block.html.tera"%string; "leafblocks.html.tera"%string; "tables.html.tera"%string] ->
  settles (fun f => inline_call (at_file f here) "inline_macros" i).
Proof.
  intros I. assert (Forall (fun x => settles (fun f => inline_call (at_file f "inline.html.tera") "self" x)) (inside i)) as F.
  { apply Forall_forall. intros x _. apply inlines_self. }
  refine (settles_next _ _ (settles_all _ _ F) _). intros f H. unfold inline_call. rewrite (proj2 (call_inline f _) here I). apply inline_runs; exact H.
Qed.
Lemma inlines_all here l : In here ["htmlbook.html.tera"%string; "block.html.tera"%string; "leafblocks.html.tera"%string; "tables.html.tera"%string] ->
  settles (fun f => Forall (inline_call (at_file f here) "inline_macros") l).
Proof. intros I. apply (settles_all (fun i f => inline_call (at_file f here) "inline_macros" i)). apply Forall_forall. intros i _. now apply inlines_from. Qed.

(** ** Leaf blocks, cells, tables *)
Lemma call_leaf f v : at_file (S f) "block.html.tera" (bs "leaf_block_macros") (bs "process_leaf_block") [(bs "block", v)]
  = out [] (render_nodes w (at_file f "leafblocks.html.tera") [(bs "block", v)] leaf_nodes).
Proof. reflexivity. Qed.
Lemma call_table f v : at_file (S f) "block.html.tera" (bs "table_macros") (bs "process_table") [(bs "block", v)]
  = out [] (render_nodes w (at_file f "tables.html.tera") [(bs "block", v)] table_nodes).
Proof. reflexivity. Qed.
Lemma call_cell f u v : at_file (S f) "tables.html.tera" (bs "self") (bs "process_table_cell") [(bs "cell", u); (bs "tag", v)]
  = out [] (render_nodes w (at_file f "tables.html.tera") [(bs "cell", u); (bs "tag", v)] cell_nodes).
Proof. reflexivity. Qed.
Lemma call_block f u v : at_file (S f) "block.html.tera" (bs "self") (bs "process_block") [(bs "block", u); (bs "skip_tag", v)]
  = out [] (render_nodes w (at_file f "block.html.tera") [(bs "block", u); (bs "skip_tag", v)] block_nodes)
  /\ at_file (S f) "htmlbook.html.tera" (bs "block_macros") (bs "process_block") [(bs "block", u); (bs "skip_tag", v)]
  = out [] (render_nodes w (at_file f "block.html.tera") [(bs "block", u); (bs "skip_tag", v)] block_nodes).
Proof. split; reflexivity. Qed.
Lemma cells_settle l : settles (fun f => Forall (cell_call (at_file f "tables.html.tera")) l).
Proof.
  apply (settles_all (fun b f => cell_call (at_file f "tables.html.tera") b)). apply Forall_forall. intros b _.
  refine (settles_next _ _ (inlines_all "tables.html.tera" (cell_of b) _) _); [cbn; tauto|]. intros f H tag. rewrite call_cell. apply cell_runs; exact H.
Qed.
Lemma no_cell_settles : settles (fun f => no_cell_call (at_file f "tables.html.tera")).
Proof. exists 1. intros [|f] L tag; [lia|]. rewrite call_cell. apply cell_none_runs. Qed.
Lemma leaves_settle b : settles (fun f => leaf_call w (at_file f "block.html.tera") b).
Proof.
  destruct b as [h m k loc]. destruct h as [id t n|v|mk p| |ts p|v|tg c|n f d l|n v d t|l]; try (exists 0; intros; exact Logic.I).
  - refine (settles_next _ _ (inlines_all "leafblocks.html.tera" l _) _); [cbn; tauto|]. intros g H. cbn [leaf_call]. rewrite call_leaf. apply leaf_runs; exact H.
  - destruct n; try (exists 0; intros; exact Logic.I).
    refine (settles_next _ _ (settles_and _ _ (cells_settle k) no_cell_settles) _). intros g (H & K). cbn [leaf_call]. rewrite call_table. now apply table_runs.
Qed.

(** ** Blocks *)
Lemma blocks_self b : settles (fun f => block_call w (at_file f "block.html.tera") b).
Proof.
  induction b as [h m k loc F] using block_ind'. 
  assert (settles (fun f => Forall (Forall (inline_call (at_file f "block.html.tera") "inline_macros")) (head_inlines h))) as HI.
  { apply (settles_all (fun l f => Forall (inline_call (at_file f "block.html.tera") "inline_macros") l)). apply Forall_forall. intros l _.
    apply inlines_all. cbn. tauto. }
  refine (settles_next _ _ (settles_and _ _ HI (settles_and _ _ (settles_all _ k F) (leaves_settle (Blk h m k loc)))) _).
  intros f (A & B & C) s. rewrite (proj1 (call_block f _ _)). now apply block_runs.
Qed.
Lemma blocks_page b : settles (fun f => at_file f "htmlbook.html.tera" (bs "block_macros") (bs "process_block") [(bs "block", VJ (json_of_block b)); (bs "skip_tag", VB false)]
  = if shown w b then Ok (block_laid w false b) else Panic).
Proof.
  destruct (blocks_self b) as (n & H). exists (S n). intros [|f] L; [lia|]. rewrite (proj2 (call_block f _ _)), <- (proj1 (call_block f _ _)).
  apply H. lia.
Qed.

(** ** htmlbook.html.tera *)
Definition each_page : list node :=
  [NText (line 4); NShow (ECall (bs "block_macros") (bs "process_block") [(bs "block", EPath (bs "block") []); (bs "skip_tag", EBool false)])].
Lemma page_turns call e l :
  Forall (fun b => call (bs "block_macros") (bs "process_block") [(bs "block", VJ (json_of_block b)); (bs "skip_tag", VB false)]
     = if shown w b then Ok (block_laid w false b) else Panic) l ->
  turns w call e (bs "block") each_page (map VJ (map json_of_block l))
  = if forallb (shown w) l then Ok (List.concat (map (fun b => line 4 ++ block_laid w false b) l)) else Panic.
Proof.
  induction 1 as [|b l H F IH]; [reflexivity|]. cbn [map]. rewrite turns_cons, IH. clear IH. unfold each_page.
  set (e' := (bs "block", VJ (json_of_block b)) :: e).
  assert (render_nodes w call e' each_page = let* t := call (bs "block_macros") (bs "process_block") [(bs "block", VJ (json_of_block b)); (bs "skip_tag", VB false)] in Ok (line 4 ++ t, e')) as E.
  { unfold each_page. cbn [render_nodes render_node bind fst snd]. change (args_of w e' [(bs "block", EPath (bs "block") []); (bs "skip_tag", EBool false)])
      with (Ok [(bs "block", VJ (json_of_block b)); (bs "skip_tag", VB false)] : result (list (bytes * value))). cbn [bind].
    destruct (call _ _ _); cbn [bind fst snd]; try reflexivity. now rewrite app_nil_r. }
  unfold each_page in E. rewrite E, H. cbn [forallb map List.concat]. destruct (shown w b); [|reflexivity]. cbn [bind andb fst].
  destruct (forallb (shown w) l); reflexivity.
Qed.
Lemma out_values call pre e x y l body r : is_call y = false -> value_of w e y = Ok (VJ (JArr l)) ->
  out pre (render_nodes w call e (NFor x y body :: r)) = let* s := turns w call e x body (map VJ l) in out (pre ++ s) (render_nodes w call e r).
Proof. apply out_for. Qed.
Lemma page_runs call e hd l : bound (bs "header") e = option_map (fun h => VJ (json_of_header h)) hd ->
  bound (bs "blocks") e = Some (VJ (JArr (map json_of_block l))) ->
  match hd with Some h => Forall (inline_call call "inline_macros") (hd_title h) | None => True end ->
  Forall (fun b => call (bs "block_macros") (bs "process_block") [(bs "block", VJ (json_of_block b)); (bs "skip_tag", VB false)]
     = if shown w b then Ok (block_laid w false b) else Panic) l ->
  out [] (render_nodes w call e page_nodes)
  = if forallb (shown w) l then Ok (graph_laid w (mkAsg None hd [] [] l [])) else Panic.
Proof.
  intros Bh Bb H F. unfold page_nodes. rewrite out_cons. cbn [render_node bind fst snd app]. step. rewrite out_cons. cbn [render_node bind fst snd app]. step.
  etransitivity; [eapply out_if; apply t_name|].
  change (bound ["h"; "e"; "a"; "d"; "e"; "r"] e) with (bound (bs "header") e). rewrite Bh.
  destruct hd as [h|]; cbn [option_map].
  - cbn [truthy json_of_header]. cbv iota. cbn [app].
    etransitivity; [eapply (s_inlines w call _ e (bs "header")); [rewrite Bh; reflexivity|reflexivity|exact H]|].
    step. etransitivity; [eapply out_for; [reflexivity|exact (v_name w e (bs "blocks") _ Bb)]|].
    etransitivity; [eapply (f_equal (fun s => let* s := s in _)); exact (page_turns call e l F)|].
    destruct (forallb (shown w) l); [|reflexivity]. cbn [bind]. step. step. apply (f_equal Ok). unfold graph_laid, blocks_laid, page_laid. cbn [a_header a_blocks option_map].
    repeat (progress (rewrite <- ?app_assoc; cbn [app])). reflexivity.
  - cbv iota. rewrite out_else. cbn [app].
    step. etransitivity; [eapply out_for; [reflexivity|exact (v_name w e (bs "blocks") _ Bb)]|].
    etransitivity; [eapply (f_equal (fun s => let* s := s in _)); exact (page_turns call e l F)|].
    destruct (forallb (shown w) l); [|reflexivity]. cbn [bind]. step. step. apply (f_equal Ok). unfold graph_laid, blocks_laid, page_laid. cbn [a_header a_blocks option_map].
    repeat (progress (rewrite <- ?app_assoc; cbn [app])). reflexivity.
Qed.
Lemma laid_exact a : exists n, forall fuel, n <= fuel ->
  render_templates w fuel a = if forallb (shown w) (a_blocks a) then Ok (graph_laid w a) else Panic.
Proof.
  assert (settles (fun f => match a_header a with Some h => Forall (inline_call (at_file f "htmlbook.html.tera") "inline_macros") (hd_title h) | None => True end)) as HT.
  { destruct (a_header a) as [h|]; [|exists 0; intros; exact Logic.I]. apply inlines_all. cbn. tauto. }
  assert (settles (fun f => Forall (fun b => at_file f "htmlbook.html.tera" (bs "block_macros") (bs "process_block") [(bs "block", VJ (json_of_block b)); (bs "skip_tag", VB false)]
     = if shown w b then Ok (block_laid w false b) else Panic) (a_blocks a))) as HB.
  { apply (settles_all (fun b f => at_file f "htmlbook.html.tera" (bs "block_macros") (bs "process_block") [(bs "block", VJ (json_of_block b)); (bs "skip_tag", VB false)]
     = if shown w b then Ok (block_laid w false b) else Panic)). apply Forall_forall. intros b B. apply blocks_page. }
  destruct (settles_and _ _ HT HB) as (n & H). exists n. intros f L. destruct (H f L) as (H1 & H2). clear H.
  unfold render_templates. rewrite parsed_ok.
  assert (render_template w parsed f (bs "htmlbook.html.tera") (json_of_asg a)
    = out [] (render_nodes w (at_file f "htmlbook.html.tera") (map (fun kv => (fst kv, VJ (snd kv)))
        ([(bs "name", jstr "document"); (bs "type", jstr "block")]
        ++ match a_attrs a with Some m => [(bs "attributes", json_of_map m)] | None => [] end
        ++ match a_header a with Some h => [(bs "header", json_of_header h)] | None => [] end
        ++ [(bs "blocks", JArr (map json_of_block (a_blocks a))); (bs "location", jlocs (a_loc a))])) page_nodes)) as -> by reflexivity.
  rewrite (page_runs _ _ (a_header a) (a_blocks a)); [reflexivity| | |exact H1|exact H2].
  - destruct (a_attrs a), (a_header a); reflexivity.
  - destruct (a_attrs a), (a_header a); reflexivity.
Qed.
End Page.
