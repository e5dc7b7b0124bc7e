(** * The text of the docx output *)
From Verif Require Import Base World Location Token Meta Inline Block Asg Docx SpecScan SpecText SpecDocx SpecHtmlText SpecDocxText
  ScanLemmas TreeInd DocxProofs.
Local Open Scope char_scope.
Local Open Scope nat_scope.

Definition shown_bit (x : option (literal_name * bytes) * bool) : bit := Shown (fst x) (snd x).
Lemma bits_stretches i : forall inside, texted i -> inline_bits inside i = map shown_bit (stretches inside i).
Proof.
  induction i as [v f l m loc o IH|v t l m loc IH|n k s loc|loc] using inline_ind'; intros inside T; cbn [inline_bits stretches texted] in *;
    try reflexivity.
  - rewrite concat_map, map_map. f_equal. apply map_ext_Forall.
    induction IH as [|x l Hx _ IHl]; [constructor|]. destruct T as [T1 T2]. constructor; [now apply Hx|now apply IHl].
  - assert (forall l, Forall (fun i => forall inside, texted i -> inline_bits inside i = map shown_bit (stretches inside i)) l ->
      fold_right and True (map texted l) -> List.concat (map (inline_bits true) l) = map shown_bit (List.concat (map (stretches true) l))) as G.
    { clear. intros l IH T. rewrite concat_map, map_map. f_equal. apply map_ext_Forall.
      induction IH as [|x l Hx _ IHl]; [constructor|]. destruct T as [T1 T2]. constructor; [now apply Hx|now apply IHl]. }
    destruct v; [| |subst l; reflexivity]; destruct T as [N T]; (destruct l as [|x l]; [contradiction|]); now apply G.
Qed.
Lemma bits_stretches_list l : Forall texted l -> inlines_bits l = map shown_bit (List.concat (map (stretches false) l)).
Proof.
  intros T. unfold inlines_bits. rewrite concat_map, map_map. f_equal. apply map_ext_Forall.
  eapply Forall_impl; [|exact T]. intros i. apply bits_stretches.
Qed.

(** whether a line break stands last *)
Definition ends (lb : bool) (l : list (option (literal_name * bytes) * bool)) : bool :=
  fold_left (fun _ x => match fst x with None => true | Some _ => false end) l lb.
Lemma ends_app lb l l' : ends lb (l ++ l') = ends (ends lb l) l'.
Proof. apply fold_left_app. Qed.
Lemma ends_list l : Forall (fun i => forall lb vs lb' vs' rs, runs_with_variant lb vs i = (lb', vs', rs) -> lb' = ends lb (stretches true i)) l ->
  forall lb vs lb' vs' rs, runs_with_variant_list lb vs l = (lb', vs', rs) -> lb' = ends lb (List.concat (map (stretches true) l)).
Proof.
  induction 1 as [|x l Hx F IH]; intros lb vs lb' vs' rs E; cbn [runs_with_variant_list] in E.
  - injection E as <- <- <-. reflexivity.
  - destruct (runs_with_variant lb vs x) as [[lb1 vs1] r1] eqn:E1. destruct (runs_with_variant_list lb1 vs1 l) as [[lb2 vs2] r2] eqn:E2.
    injection E as <- <- <-. cbn [map List.concat]. rewrite ends_app, <- (Hx _ _ _ _ _ E1). eapply IH. exact E2.
Qed.
Lemma inside_ends i : forall lb vs lb' vs' rs, runs_with_variant lb vs i = (lb', vs', rs) -> lb' = ends lb (stretches true i).
Proof.
  induction i as [v f l m loc o IH|v t l m loc IH|n k s loc|loc] using inline_ind'; intros lb vs lb' vs' rs E; cbn [runs_with_variant] in E; rewrite ?go_list in E.
  1, 2: cbn [stretches]; eapply ends_list; [exact IH|exact E].
  - now injection E as <- <- <-.
  - now injection E as <- <- <-.
Qed.
Lemma outside_ends i lb lb' rs : runs_from_inline lb i = (lb', rs) -> lb' = ends lb (stretches false i).
Proof.
  intros E. destruct i as [v f l m loc o|v t l m loc|n k s loc|loc]; cbn [runs_from_inline] in E.
  1, 2: destruct (runs_with_variant_list lb _ l) as [[lb2 vs2] r2] eqn:E2; injection E as <- <-; cbn [stretches];
    eapply ends_list; [apply Forall_forall; intros; eapply inside_ends; eassumption|exact E2].
  - now injection E as <- <-.
  - now injection E as <- <-.
Qed.
Lemma runs_ends l : forall lb lb' rs, runs_from_inlines lb l = (lb', rs) -> lb' = ends lb (List.concat (map (stretches false) l)).
Proof.
  induction l as [|i l IH]; intros lb lb' rs E; cbn [runs_from_inlines] in E; [now injection E as <- <-|].
  destruct (runs_from_inline lb i) as [lb1 r1] eqn:E1. destruct (runs_from_inlines lb1 l) as [lb2 r2] eqn:E2. injection E as <- <-.
  cbn [map List.concat]. rewrite ends_app, <- (outside_ends _ _ _ _ E1). eapply IH. exact E2.
Qed.
Lemma written_spelled l : forall lb rs, written lb l rs -> forall rest rr, spelled (ends lb l) rest rr ->
  spelled lb (map shown_bit l ++ rest) (rs ++ rr).
Proof.
  induction l as [|[[[n v]|] inside] l IH]; intros lb [|r rs] W rest rr S; try (destruct W; fail).
  - exact S.
  - destruct W as [W1 W2]. cbn [map app spelled shown_bit fst snd]. split; [exact W1|]. now apply IH.
  - destruct W as [W1 W2]. cbn [map app spelled shown_bit fst snd]. split; [exact W1|]. now apply IH.
Qed.

(** ** Steps of the writer *)
Definition step (st st' : writer * docx) (l : list bit) : Prop :=
  exists rs, docx_runs (snd st') = docx_runs (snd st) ++ rs
    /\ forall rest rr, spelled (wr_line_break (fst st')) rest rr -> spelled (wr_line_break (fst st)) (l ++ rest) (rs ++ rr).
Lemma step_refl st st' : docx_runs (snd st') = docx_runs (snd st) -> wr_line_break (fst st') = wr_line_break (fst st) -> step st st' [].
Proof. intros A B. exists []. split; [now rewrite app_nil_r|]. intros rest rr S. now rewrite <- B. Qed.
Lemma step_trans a b c l l' : step a b l -> step b c l' -> step a c (l ++ l').
Proof.
  intros (r1 & E1 & S1) (r2 & E2 & S2). exists (r1 ++ r2). split; [now rewrite E2, E1, app_assoc|].
  intros rest rr S. rewrite <- !app_assoc. apply S1, S2, S.
Qed.
Lemma step_then a b c l : step a b l -> step b c [] -> step a c l.
Proof. intros A B. rewrite <- (app_nil_r l). eapply step_trans; eassumption. Qed.
Lemma step_after a b c l : step a b [] -> step b c l -> step a c l.
Proof. intros A B. exact (step_trans _ _ _ _ _ A B). Qed.
Lemma runs_add_body d b : docx_runs (add_body d b) = docx_runs d ++ body_runs b.
Proof. unfold docx_runs, add_body. cbn [d_body]. rewrite flat_map_app. cbn [flat_map]. now rewrite app_nil_r. Qed.
Lemma step_set st s : step st (set_style st s) [].
Proof.
  destruct st as [w d]. apply step_refl; [|reflexivity]. cbn [set_style snd]. unfold add_style. now destruct (memb _ _).
Qed.
Lemma step_reset st : step st (reset_style st) [].
Proof. destruct st as [w d]. now apply step_refl. Qed.
Lemma step_inlines st num l : Forall texted l -> step st (add_inlines_paragraph st num l) (inlines_bits l).
Proof.
  intros T. destruct st as [w d]. unfold add_inlines_paragraph, inline_runs. destruct (runs_from_inlines (wr_line_break w) l) as [lb rs] eqn:E.
  exists rs. split; [cbn [add_paragraph snd]; rewrite runs_add_body; reflexivity|].
  intros rest rr S. cbn [add_paragraph fst wr_line_break] in S. rewrite bits_stretches_list by exact T.
  apply written_spelled; [eapply runs_written; exact E|]. cbn [fst]. now rewrite <- (runs_ends _ _ _ _ E).
Qed.
Lemma step_label st s : step st (add_paragraph st None [text_run s]) [Label s].
Proof.
  destruct st as [w d]. exists [text_run s]. split; [cbn [add_paragraph snd]; now rewrite runs_add_body|].
  intros rest rr S. cbn [add_paragraph fst wr_line_break app spelled] in *. now split.
Qed.
Lemma step_list_start st v : step st (docx_list_start st v) [].
Proof.
  destruct st as [w d]. unfold docx_list_start. destruct v.
  - eapply step_then; [|apply step_set]. now apply step_refl.
  - match goal with |- context [set_style ?s DListParagraph] => pose proof (step_set s DListParagraph) as S; destruct (set_style s DListParagraph) as [w1 d1] end.
    destruct (wr_abstract w1 =? 0).
    + eapply step_after; [|eapply step_then; [exact S|]]; now apply step_refl.
    + eapply step_after; [|exact S]. now apply step_refl.
Qed.

(** ** Blocks *)
Lemma inlines_bits_app l l' : inlines_bits (l ++ l') = inlines_bits l ++ inlines_bits l'.
Proof. unfold inlines_bits. now rewrite map_app, concat_app. Qed.
Lemma attached_bits b : attached b -> Forall texted (block_inlines b) /\ inlines_bits (block_inlines b) = block_bits b.
Proof.
  induction b as [h m k loc IH] using block_ind'. intros (T & C & P & K). cbn [block_inlines block_bits].
  assert (Forall texted (List.concat (map block_inlines k)) /\ inlines_bits (List.concat (map block_inlines k)) = List.concat (map block_bits k)) as [K1 K2].
  { clear -IH K. induction IH as [|x k Hx _ IHk]; [split; [constructor|reflexivity]|]. destruct K as [A B]. destruct (Hx A) as [H1 H2]. destruct (IHk B) as [H3 H4].
    cbn [map List.concat]. split; [now apply Forall_app|]. now rewrite inlines_bits_app, H2, H4. }
  rewrite C, app_nil_r, inlines_bits_app, K2. split.
  - apply Forall_app. split; [|exact K1]. destruct h as [id t lv|v|mk p| |t p|[]|t c|n f d i|n v d t|i]; cbn [own_inlines texted_head] in *; try exact T; try constructor.
    exact (proj2 T).
  - f_equal. destruct h as [id t lv|v|mk p| |t p|[]|t c|n f d i|n v d t|i]; cbn [own_inlines head_bits] in *; try reflexivity.
    + now subst t.
    + contradiction.
    + now subst c.
    + now subst v.
Qed.
Lemma step_item st mk p m k loc : kept (Blk (HListItem mk p) m k loc) ->
  step st (docx_list_item st p k) (block_bits (Blk (HListItem mk p) m k loc)).
Proof.
  intros (T & K & C). cbn [block_bits head_bits]. rewrite C, app_nil_r. unfold docx_list_item.
  set (st1 := add_inlines_paragraph st _ p). assert (step st st1 (inlines_bits p)) as S by now apply step_inlines.
  clearbody st1. destruct k as [|x k]; [cbn [map List.concat]; now rewrite app_nil_r|].
  eapply step_trans; [exact S|]. eapply step_then; [|apply step_reset]. eapply step_after; [apply (step_set _ DListParagraphContinue)|].
  generalize (set_style st1 DListParagraphContinue). induction K as [|y l A _ IH]; intros st2; [now apply step_refl|].
  cbn [fold_left map List.concat].
  apply attached_bits in A as [A1 A2]. eapply step_trans; [rewrite <- A2; now apply step_inlines|]. apply IH.
Qed.
Section Blocks.
  Variable img : bytes -> dres unit.
  Lemma step_block b : forall st st', kept b -> docx_block img st b = Ok st' -> step st st' (block_bits b).
  Proof.
    induction b as [h m k loc IH] using block_ind'. intros st st' K E.
    assert (fold_right and True (map kept k) -> forall st st', (fix go (st : writer * docx) (l : list block) : dres (writer * docx) :=
          match l with
          | [] => Ok st
          | x :: r => let* st' := docx_block img st x in go st' r
          end) st k = Ok st' -> step st st' (List.concat (map block_bits k))) as G.
    { clear -IH. intros K. induction IH as [|x k Hx _ IHk]; intros st st' E; [injection E as <-; now apply step_refl|].
      destruct K as [K1 K2]. apply bind_ok in E as (st1 & E1 & E). cbn [map List.concat]. eapply step_trans; [exact (Hx _ _ K1 E1)|]. now apply IHk. }
    assert (forall name v t, Forall texted t -> fold_right and True (map kept k) ->
      (let st1 := match v with Some x => add_paragraph (set_style st (DSectionTitle name)) None [text_run (variant_display x)] | None => st end in
       let st2 := match t with [] => st1 | _ => add_inlines_paragraph (set_style st1 (DSectionTitle name)) None t end in
       let* st3 := (fix go (st : writer * docx) (l : list block) : dres (writer * docx) :=
          match l with
          | [] => Ok st
          | x :: r => let* st' := docx_block img st x in go st' r
          end) (set_style st2 (DSectionText name)) k in Ok (reset_style st3)) = Ok st' ->
      step st st' ((label v ++ inlines_bits t) ++ List.concat (map block_bits k))) as A.
    { clear E K. intros name v t T P E. cbv zeta in E.
      set (st1 := match v with Some _ => _ | None => _ end) in E. assert (step st st1 (label v)) as S1.
      { unfold st1. destruct v as [x|]; [|now apply step_refl]. eapply step_after; [apply step_set|].
        destruct x; apply step_label. }
      clearbody st1. set (st2 := match t with [] => _ | _ => _ end) in E. assert (step st1 st2 (inlines_bits t)) as S2.
      { unfold st2. destruct t as [|x t]; [now apply step_refl|]. eapply step_after; [apply step_set|]. now apply step_inlines. }
      clearbody st2. apply bind_ok in E as (st3 & E1 & E). assert (st' = reset_style st3) as -> by (injection E as <-; reflexivity).
      eapply step_then; [|apply step_reset]. eapply step_trans; [eapply step_trans; eassumption|].
      eapply step_after; [apply step_set|]. apply (G P). exact E1. }
    destruct h as [id t lv|v|mk p| |t p|[]|t c|n f d i|n v d t|i]; cbn [docx_block] in E; pose proof K as (T & P); cbn [texted_head] in T.
    - destruct P as [P C]. cbn [block_bits head_bits]. rewrite C, app_nil_r. destruct t as [|x t].
      + apply (G P). exact E.
      + eapply step_trans; [|apply (G P); exact E]. eapply step_then; [|apply step_reset]. eapply step_after; [apply step_set|]. now apply step_inlines.
    - destruct P as [P C]. cbn [block_bits head_bits]. rewrite C, app_nil_r. eapply step_after; [apply step_list_start|]. apply (G P). exact E.
    - assert (st' = docx_list_item st p k) as -> by (injection E as <-; reflexivity). now apply step_item.
    - destruct P as [P C]. cbn [block_bits head_bits app]. rewrite C, app_nil_r. apply (G P). exact E.
    - destruct P as [P C]. destruct T as [T1 T2]. cbn [block_bits head_bits]. rewrite C, app_nil_r, <- app_assoc.
      eapply step_trans; [eapply step_after; [apply step_set|]; now apply step_inlines|].
      eapply step_trans; [eapply step_after; [apply step_set|]; now apply step_inlines|]. apply (G P). exact E.
    - destruct P as [-> C]. cbn [block_bits head_bits map List.concat app]. rewrite C. destruct st as [w d]. injection E as <-. now apply step_refl.
    - destruct P as [-> C]. cbn [block_bits head_bits map List.concat app]. rewrite C. 
      assert (st' = add_paragraph (set_style st DThematicBreak) None [text_run (bs "#")]) as -> by (injection E as <-; reflexivity).
      eapply step_after; [apply step_set|]. apply step_label.
    - destruct P as (-> & -> & C). cbn [block_bits head_bits map List.concat app inlines_bits]. rewrite C.
      apply bind_ok in E as (u & E1 & E). destruct st as [w d]. injection E as <-. apply step_refl; [|reflexivity]. cbn [snd]. rewrite runs_add_body. apply app_nil_r.
    - destruct P as [-> C]. cbn [block_bits head_bits map List.concat]. rewrite C, app_nil_r.
      match type of E with Ok (add_inlines_paragraph ?s None i) = _ => assert (st' = add_inlines_paragraph s None i) as -> by (injection E as <-; reflexivity) end.
      eapply step_after; [|apply step_inlines; exact T]. destruct n; try apply step_set; now apply step_refl.
    - destruct n; cbn [block_bits head_bits].
      + destruct P as [P C]. rewrite C, app_nil_r. now apply (A (bs "Admonition")).
      + destruct P as [P C]. rewrite C, app_nil_r. now apply (A (bs "Example")).
      + destruct P as [P C]. rewrite C, app_nil_r. now apply (A (bs "Sidebar")).
      + destruct P as (-> & -> & P & C). cbn [label inlines_bits map List.concat app]. rewrite C, app_nil_r. apply (G P). exact E.
      + destruct P as (-> & -> & P & _). cbn [label inlines_bits map List.concat app]. apply bind_ok in E as (st1 & E1 & E).
        eapply step_trans; [eapply step_after; [apply step_set|]; apply (G P); exact E1|].
        match type of E with Ok (reset_style ?s) = _ => assert (st' = reset_style s) as -> by (injection E as <-; reflexivity) end.
        eapply step_then; [|apply step_reset]. unfold credits. destruct m as [md|]; [|now apply step_refl].
        clear. induction (m_attrs md) as [|[k v] l IH]; [now apply step_refl|]. cbn [mget find fst].
        destruct (beqb (bs "attribution") k); [apply step_label|exact IH].
      + contradiction.
      + contradiction.
    - destruct P.
  Qed.
  Lemma step_blocks l : forall st st', Forall kept l -> docx_blocks img st l = Ok st' -> step st st' (List.concat (map block_bits l)).
  Proof.
    induction l as [|b l IH]; intros st st' K E; cbn [docx_blocks] in E; [injection E as <-; now apply step_refl|].
    inversion K. subst. apply bind_ok in E as (st1 & E1 & E). cbn [map List.concat]. eapply step_trans; [eapply step_block; eassumption|]. now apply IH.
  Qed.
  Lemma docx_text_shown a d : kept_graph a -> render_docx img a = Ok d -> spelled false (graph_bits a) (docx_runs d).
  Proof.
    intros [K T] E. unfold render_docx in E. cbv zeta in E. apply bind_ok in E as ((w1 & d1) & E & E').
    assert (d = d1) as -> by (injection E' as <-; reflexivity). clear E'.
    match type of E with docx_blocks img ?s _ = _ => assert (step (new_writer, default_docx) s
      match a_header a with Some h => inlines_bits (hd_title h) | None => [] end) as S end.
    { destruct (a_header a) as [h|]; [|now apply step_refl]. destruct (hd_title h) as [|x t]; [now apply step_refl|].
      pose proof (step_inlines (new_writer, default_docx) None (x :: t) T) as S. unfold add_inlines_paragraph in S.
      destruct (inline_runs (new_writer, default_docx) (x :: t)) as [[w d] rs].
      destruct S as (r & S1 & S2). exists r. split; [|exact S2]. cbn [add_paragraph snd] in S1 |- *. rewrite runs_add_body in *. exact S1. }
    apply step_blocks in E; [|exact K]. destruct (step_trans _ _ _ _ _ S E) as (rs & R & W). cbn [snd] in R. rewrite R.
    specialize (W [] []). rewrite !app_nil_r in W. apply W. exact I.
  Qed.
End Blocks.
