(** * The docx paragraphs of articles *)
From Verif Require Import Json Html Cli SpecCli CliProofs Base World Location Token Scanner Meta Inline Block Asg Parser Docx SpecScan SpecDoc SpecLevel SpecArticle
  SpecArticleDocx TreeInd LevelProofs NoteProofs ScanLine ScanLemmas SpecText TextProofs DocxProofs DocGraph ArticleProofs ArticleWhole ArticleHtml.
From Verif Require ScanDoc.
Local Open Scope char_scope.
Local Open Scope nat_scope.
Local Arguments bs : simpl never.
Local Arguments dec : simpl never.

(** ** Locations do not matter *)
Lemma bare_runs_list l : (Forall (fun i => forall lb vs, runs_with_variant lb vs (bare_inline i) = runs_with_variant lb vs i) l) ->
  forall lb vs, runs_with_variant_list lb vs (map bare_inline l) = runs_with_variant_list lb vs l.
Proof.
  induction 1 as [|x l Hx F IH]; intros lb vs; [reflexivity|]. cbn [map runs_with_variant_list]. rewrite Hx.
  destruct (runs_with_variant lb vs x) as [[lb1 vs1] r1]. now rewrite IH.
Qed.
Lemma bare_runs i : forall lb vs, runs_with_variant lb vs (bare_inline i) = runs_with_variant lb vs i.
Proof.
  induction i using inline_ind'; intros lb vs; cbn [bare_inline runs_with_variant]; try reflexivity; rewrite !go_list; now apply bare_runs_list.
Qed.
Lemma bare_run lb i : runs_from_inline lb (bare_inline i) = runs_from_inline lb i.
Proof.
  destruct i; cbn [bare_inline runs_from_inline]; try reflexivity; rewrite bare_runs_list; try reflexivity; apply Forall_forall; intros; apply bare_runs.
Qed.
Lemma bare_runs_from l : forall lb, runs_from_inlines lb (map bare_inline l) = runs_from_inlines lb l.
Proof.
  induction l as [|i l IH]; intros lb; [reflexivity|]. cbn [map runs_from_inlines]. rewrite bare_run. destruct (runs_from_inline lb i). now rewrite IH.
Qed.
Lemma bare_inline_runs st l : inline_runs st (map bare_inline l) = inline_runs st l.
Proof. destruct st. unfold inline_runs. now rewrite bare_runs_from. Qed.
Lemma bare_add st num l : add_inlines_paragraph st num (map bare_inline l) = add_inlines_paragraph st num l.
Proof. unfold add_inlines_paragraph. now rewrite bare_inline_runs. Qed.
Lemma bare_block_inlines b : block_inlines (bare b) = map bare_inline (block_inlines b).
Proof.
  induction b as [h m k loc IH] using block_ind'. cbn [bare block_inlines]. rewrite map_app. f_equal.
  - destruct h; reflexivity.
  - induction IH as [|x l Hx F IHl]; [reflexivity|]. cbn [map List.concat]. now rewrite map_app, Hx, IHl.
Qed.
Lemma docx_block_eq img st h m k loc :
  docx_block img st (Blk h m k loc) =
  match h with
  | HSection _ t lv =>
      docx_blocks img (match t with
                | [] => st
                | _ => reset_style (add_inlines_paragraph (set_style st (DHeading lv)) None t)
                end) k
  | HList v => docx_blocks img (docx_list_start st v) k
  | HListItem _ p => Ok (docx_list_item st p k)
  | HDList => docx_blocks img st k
  | HDListItem t p =>
      docx_blocks img (add_inlines_paragraph (set_style (add_inlines_paragraph (set_style st DDefinitionTerm) None t) DDefinition) None p) k
  | HBreak BPage =>
      let (w, d) := st in
      Ok (mkWriter true (wr_line_break w) (wr_abstract w) (wr_num w) (wr_style w), d)
  | HBreak BThematic => Ok (add_paragraph (set_style st DThematicBreak) None [text_run (bs "#")])
  | HLeaf n _ _ l =>
      Ok (add_inlines_paragraph (match n with
                | NVerse => set_style st DVerse
                | NListing | NLiteral => set_style st DMonospace
                | _ => st
                end) None l)
  | HParent n v _ t =>
      let parent (name : bytes) :=
        let st := match v with
                  | Some x => add_paragraph (set_style st (DSectionTitle name)) None
                                            [text_run (variant_display x)]
                  | None => st
                  end in
        let st := match t with
                  | [] => st
                  | _ => add_inlines_paragraph (set_style st (DSectionTitle name)) None t
                  end in
        let* st := docx_blocks img (set_style st (DSectionText name)) k in
        Ok (reset_style st) in
      match n with
      | PAdmonition => parent (bs "Admonition")
      | PExample => parent (bs "Example")
      | PSidebar => parent (bs "Sidebar")
      | POpen => docx_blocks img st k
      | PQuote =>
          let* st := docx_blocks img (set_style st DQuote) k in
          Ok (reset_style (match m with
            | Some md => match mget (bs "attribution") (m_attrs md) with
                         | Some a => add_paragraph st None [text_run (bs "— " ++ a ++ [NL])]
                         | None => st
                         end
            | None => st
            end))
      | PTable => docx_table st m k
      | PFootnotes => Ok st
      end
  | HMacro target _ =>
      let* _ := img target in
      let (w, d) := st in Ok (w, add_body d (BPic target))
  | HCell _ => Ok st
  end.
Proof.
  assert (forall l st, (fix go (st : writer * docx) (l : list block) : dres (writer * docx) :=
          match l with
          | [] => Ok st
          | x :: r => let* st' := docx_block img st x in go st' r
          end) st l = docx_blocks img st l) as E.
  { induction l as [|x l IH]; intros s; [reflexivity|]. cbn [docx_blocks]. destruct (docx_block img s x); cbn [bind]; auto. }
  destruct h; cbn [docx_block]; cbv zeta; rewrite ?E; try reflexivity.
Qed.
Lemma bare_rows k : forall st cols num idx cur rows, table_rows st cols num idx (map bare k) cur rows = table_rows st cols num idx k cur rows.
Proof.
  induction k as [|b k IH]; intros; [reflexivity|]. cbn [map table_rows]. rewrite bare_block_inlines, bare_inline_runs.
  destruct (inline_runs st (block_inlines b)). destruct (docx_row_break cols idx num) as [[]| | | |]; cbn [bind]; auto.
Qed.
Lemma bare_items k : forall st, fold_left (fun s b => add_inlines_paragraph s None (block_inlines b)) (map bare k) st
  = fold_left (fun s b => add_inlines_paragraph s None (block_inlines b)) k st.
Proof. induction k as [|b k IH]; intros; [reflexivity|]. cbn [map fold_left]. now rewrite bare_block_inlines, bare_add. Qed.
Lemma bare_docx img b : forall st, docx_block img st (bare b) = docx_block img st b.
Proof.
  induction b as [h m k loc IH] using block_ind'. intros st. cbn [bare]. rewrite !docx_block_eq.
  assert (forall s, docx_blocks img s (map bare k) = docx_blocks img s k) as E.
  { clear st. induction IH as [|x l Hx F IHl]; intros st; [reflexivity|]. cbn [map docx_blocks]. rewrite Hx. destruct (docx_block img st x); cbn [bind]; auto. }
  destruct h; cbn [bare_head]; rewrite ?E, ?bare_add; try reflexivity.
  - rewrite <- (bare_add _ _ title). destruct title; reflexivity.
  - unfold docx_list_item. rewrite bare_add. destruct k as [|x k]; [reflexivity|]. rewrite bare_items. reflexivity.
  - cbv zeta. assert (forall s, match map bare_inline title with [] => s | _ :: _ => add_inlines_paragraph s None (map bare_inline title) end
      = match title with [] => s | _ :: _ => add_inlines_paragraph s None title end) as T
      by (intros s; rewrite bare_add; now destruct title).
    destruct n; try reflexivity; try (rewrite <- (bare_add _ _ title); destruct title; rewrite ?E; reflexivity).
    + unfold docx_table. rewrite map_length. destruct (match m with Some _ => _ | None => _ end); try reflexivity. cbn [bind]. now rewrite bare_rows.
Qed.
Lemma bare_docx_blocks img l : forall st, docx_blocks img st (map bare l) = docx_blocks img st l.
Proof. induction l as [|x l IH]; intros st; [reflexivity|]. cbn [map docx_blocks]. rewrite bare_docx. destruct (docx_block img st x); cbn [bind]; auto. Qed.

(** ** Nesting does not matter *)
Lemma docx_blocks_app img a b : forall st, docx_blocks img st (a ++ b) = let* st := docx_blocks img st a in docx_blocks img st b.
Proof. induction a as [|x a IH]; intros st; [reflexivity|]. cbn [app docx_blocks]. destruct (docx_block img st x); cbn [bind]; auto. Qed.
Lemma split_app {A} f (l : list A) : fst (split_while f l) ++ snd (split_while f l) = l.
Proof. induction l as [|x l IH]; [reflexivity|]. cbn. destruct (f x); [|reflexivity]. destruct (split_while f l). cbn in *. now rewrite IH. Qed.
Lemma nest_docx img l : forall st, docx_blocks img st (nest l) = docx_blocks img st l.
Proof.
  induction l as [|[h m k loc] l IH]; intros st; [reflexivity|].
  assert (docx_blocks img st (Blk h m k loc :: nest l) = docx_blocks img st (Blk h m k loc :: l)) as E
    by (cbn [docx_blocks]; destruct (docx_block img st (Blk h m k loc)); cbn [bind]; auto).
  destruct h; try exact E. cbn [nest]. destruct (split_while (under level) (nest l)) as (mine, rest) eqn:S. rewrite <- E.
  pose proof (split_app (under level) (nest l)) as W. rewrite S in W. cbn in W. rewrite <- W. cbn [docx_blocks]. rewrite !docx_block_eq, docx_blocks_app.
  destruct (docx_blocks img _ k); cbn [bind]; try reflexivity. symmetry. apply docx_blocks_app.
Qed.

(** ** Text *)
Definition env_ok (e : env) : Prop := forall n v, e n = Some v -> utf8 v /\ ~ In "010" v.
Definition line_ok (s : bytes) : Prop := utf8 s /\ ~ In "010" s.
Lemma line_ok_app a b : line_ok a -> line_ok b -> line_ok (a ++ b).
Proof. intros (A & B) (C & D). split; [now apply utf8_app|]. rewrite in_app_iff. tauto. Qed.
Lemma plain_line s : plain s -> line_ok s.
Proof. intros (U & F). split; [exact U|]. now apply ScanDoc.markup_no_nl. Qed.
Lemma byte_line c : byte_in 0 127 c -> c <> "010" -> line_ok [c].
Proof. intros B N. split; [apply utf8_1; [exact B|constructor]|]. intros [E|[]]. now apply N. Qed.
Ltac ascii_byte := apply byte_line; [split; vm_compute; discriminate|discriminate].
Lemma name_line n : Forall name_char n -> line_ok n.
Proof.
  induction 1 as [|c n H F IH]; [split; [constructor|tauto]|]. apply (line_ok_app [c] n); [|exact IH].
  destruct H as [H| ->]; [|ascii_byte].
  destruct c as [[] [] [] [] [] [] [] []]; vm_compute in H; try discriminate H; ascii_byte.
Qed.
Lemma value_line e n : env_ok e -> Forall name_char n -> line_ok (value_of e n).
Proof.
  intros E F. unfold value_of. destruct (e n) as [v|] eqn:V; [exact (E n v V)|].
  apply (line_ok_app ["{"] (n ++ ["}"])); [ascii_byte|]. apply line_ok_app; [now apply name_line|ascii_byte].
Qed.
Lemma concat_line l : Forall line_ok l -> line_ok (List.concat l).
Proof. induction 1; cbn [List.concat]; [split; [constructor|tauto]|now apply line_ok_app]. Qed.
Lemma chunk_line e c : env_ok e -> plain_chunk c -> line_ok (chunk_text e c).
Proof.
  intros E (P & F). unfold chunk_text, expand. apply line_ok_app; [now apply plain_line|]. apply concat_line, Forall_map.
  eapply Forall_impl; [|exact F]. cbn. intros x (N & Q). apply line_ok_app; [now apply value_line|now apply plain_line].
Qed.
Lemma spell_line c : plain_chunk c -> line_ok (spell_chunk c).
Proof.
  intros (P & F). unfold spell_chunk, spell. apply line_ok_app; [now apply plain_line|]. apply concat_line, Forall_map.
  eapply Forall_impl; [|exact F]. cbn [fst snd]. intros x (N & Q). apply (line_ok_app ["{"]); [ascii_byte|].
  apply line_ok_app; [now apply name_line|]. apply (line_ok_app ["}"]); [ascii_byte|now apply plain_line].
Qed.
Lemma marks_chunks l : forall prev, marks_fit prev l -> Forall (fun x => let '(k, i, a) := x in plain_chunk i /\ plain_chunk a) l.
Proof.
  induction l as [|((k, i), a) l IH]; intros prev H; constructor.
  - destruct H as (A & _ & B & _). now split.
  - destruct H as (_ & _ & _ & _ & _ & H). eauto.
Qed.
Lemma spell_rich_line r : rich_line r -> line_ok (spell_rich r).
Proof.
  intros (_ & P & _ & M). apply marks_chunks in M. unfold spell_rich. apply line_ok_app; [now apply spell_line|].
  apply concat_line, Forall_map. eapply Forall_impl; [|exact M]. intros ((k, i), a) (A & B). unfold spell_marked.
  assert (line_ok [mark_char k]) as K by (destruct k; ascii_byte).
  apply (line_ok_app [mark_char k]); [exact K|]. apply line_ok_app; [now apply spell_line|].
  apply (line_ok_app [mark_char k]); [exact K|now apply spell_line].
Qed.
Definition part_ok (p : part) : Prop := match p with PText s => utf8 s | PMarked _ s => line_ok s end.
Lemma chunk_part_ok e c : env_ok e -> plain_chunk c -> Forall part_ok (chunk_part e c).
Proof.
  intros E P. unfold chunk_part. destruct (spell_chunk c); [constructor|]. constructor; [|constructor]. now apply chunk_line.
Qed.
Lemma rich_part_ok e r : env_ok e -> rich_line r -> Forall part_ok (rich_parts e r).
Proof.
  intros E (_ & P & _ & M). apply marks_chunks in M. unfold rich_parts. apply Forall_app. split; [now apply chunk_part_ok|].
  induction M as [|((k, i), a) l (A & B) M IH]; [constructor|]. cbn [map List.concat]. apply Forall_app. split; [|exact IH].
  constructor; [now apply chunk_line|now apply chunk_part_ok].
Qed.
Lemma lines_part_ok e l : env_ok e -> Forall rich_line l -> Forall part_ok (lines_parts e l).
Proof.
  intros E. induction 1 as [|a l H F IH]; [constructor|]. cbn [lines_parts]. apply Forall_app. split; [now apply rich_part_ok|].
  destruct l; [constructor|]. constructor; [|exact IH]. apply utf8_1; [split; vm_compute; discriminate|constructor].
Qed.
Lemma merge_ok l : Forall part_ok l -> Forall part_ok (merge l).
Proof.
  induction 1 as [|[s|k s] l H F IH]; cbn [merge]; [constructor| |now constructor].
  destruct (merge l) as [|[b|k b] r]; inversion IH; subst.
  - constructor; [exact H|constructor].
  - constructor; [now apply utf8_app|assumption].
  - constructor; [exact H|assumption].
Qed.
Lemma text_part_ok e l : env_ok e -> Forall rich_line l -> Forall part_ok (text_parts e l).
Proof. intros. now apply merge_ok, lines_part_ok. Qed.
Lemma no_newline s : ~ In "010" s -> replace_newline s = s.
Proof.
  intros N. unfold replace_newline. rewrite <- (map_id s) at 2. apply map_ext_in. intros c H.
  destruct (Ascii.eqb c NL) eqn:E; [|reflexivity]. apply Ascii.eqb_eq in E as ->. now elim N.
Qed.
Lemma part_runs l : Forall part_ok l -> exists rs, runs_from_inlines false (map part_inline l) = (false, rs) /\ Forall2 part_run l rs.
Proof.
  induction 1 as [|p l H F (rs & E & R)]; [exists []; split; constructor|]. cbn [map runs_from_inlines].
  destruct p as [s|k s]; cbn [part_inline runs_from_inline runs_with_variant_list runs_with_variant value_or_refd_char].
  - rewrite E. eexists. split; [reflexivity|]. constructor; [|exact R]. eexists. split; [reflexivity|]. now apply one_line.
  - rewrite E. eexists. split; [reflexivity|]. constructor; [|exact R]. destruct H as (_ & N). rewrite no_newline by exact N.
    destruct k; reflexivity.
Qed.

(** ** Blocks *)
Definition R (w : writer) (ds : dstate) : Prop :=
  style_name (ds_style ds) (style_id (wr_style w)) /\ wr_page_break w = ds_break ds /\ wr_num w = ds_lists ds /\ wr_line_break w = false.
Definition does (f : writer * docx -> dres (writer * docx)) (ds : dstate) (x : list docx_para * dstate) : Prop :=
  forall w d, R w ds -> exists w' d' bl, f (w, d) = Ok (w', d') /\ R w' (snd x) /\ d_body d' = d_body d ++ bl /\ Forall2 shows (fst x) bl.
Lemma does_then f g ds ps ds1 qs ds2 : does f ds (ps, ds1) -> does g ds1 (qs, ds2) -> does (fun st => let* st := f st in g st) ds (ps ++ qs, ds2).
Proof.
  intros F G w d H. destruct (F w d H) as (w1 & d1 & b1 & E1 & R1 & B1 & S1). destruct (G w1 d1 R1) as (w2 & d2 & b2 & E2 & R2 & B2 & S2).
  exists w2, d2, (b1 ++ b2). rewrite E1. cbn [bind]. split; [exact E2|]. split; [exact R2|]. split; [now rewrite B2, B1, app_assoc|]. now apply Forall2_app.
Qed.
Lemma does_put ds num parts runs : Forall2 part_run parts runs ->
  does (fun st => Ok (add_paragraph st num runs)) ds (put num parts ds).
Proof.
  intros F w d (S & B & N & L). cbn. eexists _, _, [_]. split; [reflexivity|]. split; [split; [exact S|split; [reflexivity|split; assumption]]|].
  split; [reflexivity|]. constructor; [|constructor]. eexists. split; [reflexivity|]. cbn. auto.
Qed.
Lemma does_text ds num e l : env_ok e -> Forall rich_line l ->
  does (fun st => Ok (add_inlines_paragraph st num (text_inlines e l))) ds (put num (text_parts e l) ds).
Proof.
  intros E F w d H. destruct (part_runs _ (text_part_ok e l E F)) as (rs & Q & P).
  destruct (does_put ds num _ rs P w d H) as (w' & d' & bl & K). exists w', d', bl.
  destruct K as (K1 & K2). split; [|exact K2]. rewrite <- K1. f_equal. unfold add_inlines_paragraph, inline_runs.
  destruct H as (_ & _ & _ & L). rewrite L. unfold text_inlines. fold (text_parts e l). rewrite Q. destruct w; cbn in *. subst. reflexivity.
Qed.
Lemma does_style ds s t : style_name t (style_id s) -> does (fun st => Ok (set_style st s)) ds ([], mkDS t (ds_break ds) (ds_lists ds)).
Proof.
  intros H w d (S & B & N & L). cbn. eexists _, _, []. split; [reflexivity|]. split; [repeat split; assumption|]. split; [|constructor].
  rewrite app_nil_r. unfold add_style. destruct (memb _ _); reflexivity.
Qed.
Lemma does_reset ds : does (fun st => Ok (reset_style st)) ds ([], normal ds).
Proof.
  intros w d (S & B & N & L). cbn. eexists _, _, []. split; [reflexivity|]. split; [repeat split; assumption|]. split; [|constructor].
  now rewrite app_nil_r.
Qed.
Lemma does_ext f g ds x : (forall st, f st = g st) -> does f ds x -> does g ds x.
Proof. intros E D w d H. destruct (D w d H) as (a & b & c & K). exists a, b, c. now rewrite <- E. Qed.
Lemma decimal_dec n : decimal (dec n) (N.of_nat n).
Proof.
  apply decimal_val. assert (digits_val 0 (dec n) = Some (N.of_nat n)) as E by (unfold dec; apply dec_fuel_val; lia).
  split; [|exact E]. intros Z. destruct n; [discriminate Z|]. rewrite Z in E. discriminate E.
Qed.

Section Docx.
Variable img : bytes -> dres unit.
Definition makes (l : list block) (ds : dstate) (x : list docx_para * dstate) : Prop := does (fun st => docx_blocks img st l) ds x.
Lemma makes_nil ds : makes [] ds ([], ds).
Proof. intros w d H. exists w, d, []. split; [reflexivity|]. split; [exact H|]. split; [now rewrite app_nil_r|constructor]. Qed.
Lemma makes_app a b ds ps ds1 qs ds2 : makes a ds (ps, ds1) -> makes b ds1 (qs, ds2) -> makes (a ++ b) ds (ps ++ qs, ds2).
Proof. intros A B. eapply does_ext; [|exact (does_then _ _ _ _ _ _ _ A B)]. intros st. cbn beta. now rewrite docx_blocks_app. Qed.
Lemma makes_one b ds x : does (fun st => docx_block img st b) ds x -> makes [b] ds x.
Proof. intros D. eapply does_ext; [|exact D]. intros st. cbn [docx_blocks]. destruct (docx_block img st b); reflexivity. Qed.
Lemma makes_cons b l ds ps ds1 qs ds2 : does (fun st => docx_block img st b) ds (ps, ds1) -> makes l ds1 (qs, ds2) -> makes (b :: l) ds (ps ++ qs, ds2).
Proof. intros A B. exact (does_then _ _ _ _ _ _ _ A B). Qed.

Lemma para_docx e l ds : env_ok e -> Forall rich_line l -> does (fun st => docx_block img st (para_block e l)) ds (put None (text_parts e l) ds).
Proof. intros E F. eapply does_ext; [|exact (does_text ds None e l E F)]. intros st. unfold para_block. now rewrite docx_block_eq. Qed.
Lemma items_docx e mk l : forall ds, env_ok e -> Forall lines_ok l ->
  makes (map (fun i => Blk (HListItem mk (text_inlines e i)) None [] []) l) ds (put_all (Some (ds_lists ds)) (map (text_parts e) l) ds).
Proof.
  induction l as [|i l IH]; intros ds E F; [apply makes_nil|]. inversion F as [|? ? (N & H) F']; subst. cbn [map put_all].
  specialize (IH (mkDS (ds_style ds) false (ds_lists ds)) E F'). cbn [ds_lists put] in *.
  destruct (put_all (Some (ds_lists ds)) (map (text_parts e) l) (mkDS (ds_style ds) false (ds_lists ds))) as (b, ds2).
  eapply makes_cons; [|exact IH]. intros w d HR. destruct (does_text ds (Some (ds_lists ds)) e i E (fit_rich _ H) w d HR) as (w' & d' & bl & K1 & K2).
  exists w', d', bl. split; [|exact K2]. rewrite docx_block_eq. unfold docx_list_item. cbn [fst]. destruct HR as (_ & _ & -> & _). exact K1.
Qed.
Lemma list_start v ds : let n := S (ds_lists ds) in
  does (fun st => Ok (docx_list_start st v)) ds
    ([], mkDS (match v with LOrdered => Numbered n | LUnordered => Named (bs "ListParagraph") end) (ds_break ds) n).
Proof.
  intros n w d (S & B & N & L). unfold docx_list_start. cbv zeta. destruct v.
  - cbn [set_style wr_page_break wr_line_break wr_abstract wr_num wr_style]. eexists _, _, [].
    split; [reflexivity|]. split; [|split; [|constructor]].
    + split; [|split; [exact B|split; [cbn; now rewrite N|exact L]]].
      eexists. split; [|reflexivity]. rewrite N. apply decimal_dec.
    + rewrite app_nil_r. cbn. unfold add_style. destruct (memb _ _); reflexivity.
  - cbn [set_style wr_page_break wr_line_break wr_abstract wr_num wr_style]. destruct (Nat.eqb (wr_abstract w) 0); eexists _, _, [].
    + split; [reflexivity|]. split; [split; [reflexivity|split; [exact B|split; [cbn; now rewrite N|exact L]]]|]. split; [|constructor]. rewrite app_nil_r. cbn. unfold add_style. destruct (memb _ _); reflexivity.
    + split; [reflexivity|]. split; [split; [reflexivity|split; [exact B|split; [cbn; now rewrite N|exact L]]]|]. split; [|constructor]. rewrite app_nil_r. cbn. unfold add_style. destruct (memb _ _); reflexivity.
Qed.
Lemma verbatim_text body : body_ok body -> utf8 ("010" :: List.concat (map (fun o => body_line o ++ ["010"]) body)).
Proof.
  intros F. assert (utf8 ["010"]) as N by (apply utf8_1; [split; vm_compute; discriminate|constructor]).
  apply (utf8_app ["010"]); [exact N|]. induction F as [|o l H F IH]; [constructor|]. cbn [map List.concat]. apply utf8_app; [|exact IH].
  apply utf8_app; [|exact N]. destruct o as [r|]; [|constructor]. apply (spell_rich_line r), H. reflexivity.
Qed.
Lemma leaf_docx_ok e x ds : env_ok e -> leaf_ok x -> makes (leaf_blocks e x) ds (leaf_docx e x ds).
Proof.
  intros E H. destruct x as [l|o l|v body| | | |]; cbn [leaf_blocks leaf_docx]; try apply makes_nil.
  - apply makes_one, para_docx; [exact E|]. apply fit_rich, H.
  - destruct H as (N & F). apply makes_one. 
    pose proof (list_start (if o then LOrdered else LUnordered) ds) as S. cbv zeta in S.
    pose proof (items_docx e (if o then bs "." else bs "*") l
      (mkDS (if o then Numbered (Datatypes.S (ds_lists ds)) else Named (bs "ListParagraph")) (ds_break ds) (Datatypes.S (ds_lists ds))) E F) as I.
    cbn [ds_lists] in I. destruct (put_all _ _ _) as (b, ds2).
    destruct o; (eapply does_ext; [|exact (does_then _ _ ds [] _ b ds2 S I)]); intros st; cbn [bind]; now rewrite docx_block_eq.
  - apply makes_one. pose proof (verbatim_text body H) as U. set (s := "010" :: List.concat (map (fun o => body_line o ++ ["010"]) body)) in *.
    assert (forall ds, does (fun st => Ok (add_inlines_paragraph st None [ILit LText false s []])) ds (put None [PText s] ds)) as K.
    { clear ds. intros ds w d HR. destruct (part_runs [PText s]) as (rs & Q & P); [constructor; [exact U|constructor]|].
      destruct (does_put ds None _ rs P w d HR) as (w' & d' & bl & K1 & K2). exists w', d', bl. split; [|exact K2]. rewrite <- K1. f_equal.
      unfold add_inlines_paragraph, inline_runs. destruct HR as (_ & _ & _ & L). rewrite L. cbn [map part_inline] in Q. rewrite Q. destruct w; cbn in *. subst. reflexivity. }
    pose proof (does_style ds DMonospace (Named (bs "Monospace")) eq_refl) as M.
    destruct v; cbn [verbatim_name].
    + eapply does_ext; [|exact (does_then _ _ ds [] _ _ _ M (K _))]. intros st. now rewrite docx_block_eq.
    + eapply does_ext; [|exact (does_then _ _ ds [] _ _ _ M (K _))]. intros st. now rewrite docx_block_eq.
    + eapply does_ext; [|exact (K ds)]. intros st. now rewrite docx_block_eq.
Qed.
Lemma leaf_env_ok e x : env_ok e -> leaf_ok x -> env_ok (leaf_env e x).
Proof.
  intros E H. destruct x; try exact E. cbn [leaf_env leaf_ok simple_line] in *. destruct H as (_ & _ & _ & U & N & _).
  intros m v. unfold set_env. destruct (list_eq_dec _ m name); [intros [= <-]; now split|apply E].
Qed.
Lemma leaves_docx_ok l : forall e ds, env_ok e -> Forall leaf_ok l ->
  let (bl, e1) := leaves_blocks e l in let '(ps, ds', e2) := leaves_docx e l ds in makes bl ds (ps, ds') /\ e1 = e2 /\ env_ok e2.
Proof.
  induction l as [|x l IH]; intros e ds E F; cbn [leaves_blocks leaves_docx]; [split; [apply makes_nil|auto]|].
  inversion F as [|? ? H F']; subst. pose proof (leaf_docx_ok e x ds E H) as K. destruct (leaf_docx e x ds) as (a, ds1).
  specialize (IH (leaf_env e x) ds1 (leaf_env_ok e x E H) F'). destruct (leaves_blocks _ l) as (bl, e1), (leaves_docx _ l ds1) as ((b, ds2), e2).
  destruct IH as (A & B & C). split; [|auto]. eapply makes_app; eassumption.
Qed.
Lemma piece_docx_ok e p ds : env_ok e -> piece_ok p ->
  let (bl, e1) := piece_blocks e p in let '(ps, ds', e2) := piece_docx e p ds in makes bl ds (ps, ds') /\ e1 = e2 /\ env_ok e2.
Proof.
  intros E H. destruct p as [x|n t|v l|v|b l last]; cbn [piece_blocks piece_docx].
  - pose proof (leaf_docx_ok e x ds E H) as K. destruct (leaf_docx e x ds). split; [exact K|]. split; [reflexivity|now apply leaf_env_ok].
  - destruct H as (N & T). split; [|auto]. apply makes_one.
    assert (style_name (Named (bs (heading_style n))) (style_id (DHeading n))) as S by (destruct n as [|[|[|[|[|n]]]]]; try lia; reflexivity).
    assert (Forall rich_line [t]) as F by (constructor; [exact T|constructor]).
    pose proof (does_then _ _ _ _ _ _ _ (does_style ds (DHeading n) _ S) (does_text _ None e [t] E F)) as A.
    pose proof (does_then _ _ _ _ _ _ _ A (does_reset _)) as B. eapply does_ext; [|exact B]. intros st. cbn [bind]. rewrite docx_block_eq.
    destruct (text_inlines_cons e [t]) as (x & r & ->); [discriminate|exact F|reflexivity].
  - destruct H as (N & F). split; [|auto]. apply makes_one.
    pose proof (does_style ds (DSectionTitle (bs "Admonition")) (Named (bs "Admonition Title")) eq_refl) as A.
    assert (Forall2 part_run [PText (admonition_title v)] [text_run (variant_display v)]) as P.
    { constructor; [|constructor]. eexists. split; [reflexivity|]. exists (chars (admonition_title v)).
      assert (utf8 (admonition_title v)) as U by (destruct v; repeat (apply utf8_1; [split; vm_compute; discriminate|]); constructor).
      split; [now apply characters|]. split; [symmetry; apply unchars_chars|]. destruct v; reflexivity. }
    pose proof (does_then _ _ _ _ _ _ _ A (does_put _ None _ _ P)) as B.
    pose proof (does_then _ _ _ _ _ _ _ B (does_style _ (DSectionText (bs "Admonition")) (Named (bs "Admonition Text")) eq_refl)) as C.
    pose proof (does_then _ _ _ _ _ _ _ C (makes_one _ _ _ (para_docx e l _ E (fit_rich _ F)))) as D.
    pose proof (does_then _ _ _ _ _ _ _ D (does_reset _)) as G. eapply does_ext; [|exact G]. intros st. cbn [bind]. now rewrite docx_block_eq.
  - destruct v; cbn [put].
    + split; [|auto]. apply makes_one. intros w d (S & B & N & L). rewrite docx_block_eq. eexists _, _, []. split; [reflexivity|].
      split; [split; [exact S|split; [reflexivity|split; assumption]]|]. split; [now rewrite app_nil_r|constructor].
    + split; [|auto]. apply makes_one.
      assert (Forall2 part_run [PText (bs "#")] [text_run (bs "#")]) as P.
      { constructor; [|constructor]. eexists. split; [reflexivity|]. exists [bs "#"]. split; [|split; reflexivity].
        apply (characters (bs "#")). apply utf8_1; [split; vm_compute; discriminate|constructor]. }
      eapply does_ext; [|exact (does_then _ _ _ _ _ _ _ (does_style ds DThematicBreak (Named (bs "ThematicBreak")) eq_refl) (does_put _ None _ _ P))].
      intros st. cbn [bind]. now rewrite docx_block_eq.
  - destruct H as (F & L).
    pose proof (leaves_docx_ok l e (box_style b ds) E F) as K. destruct (leaves_blocks e l) as (kids, e1), (leaves_docx e l (box_style b ds)) as ((a, ds1), e2).
    destruct K as (K & -> & E2).
    set (tl := match last with [] => [] | _ => [para_block e2 last] end).
    set (tp := match last with [] => ([], ds1) | _ => put None (text_parts e2 last) ds1 end).
    assert (makes tl ds1 tp) as T.
    { unfold tl, tp. destruct last; [apply makes_nil|]. apply makes_one, para_docx; [exact E2|now apply fit_rich]. }
    destruct tp as (c, ds2). split; [|auto]. apply makes_one. pose proof (makes_app _ _ _ _ _ _ _ K T) as KT.
    destruct b; cbn [box_name box_style] in *.
    + pose proof (does_then _ _ _ _ _ _ _ (does_style ds (DSectionText (bs "Example")) (Named (bs "Example Text")) eq_refl) KT) as A.
      eapply does_ext; [|rewrite <- (app_nil_r (a ++ c)); exact (does_then _ _ _ _ _ _ _ A (does_reset _))]. intros st. cbn [bind]. now rewrite docx_block_eq.
    + pose proof (does_then _ _ _ _ _ _ _ (does_style ds (DSectionText (bs "Sidebar")) (Named (bs "Sidebar Text")) eq_refl) KT) as A.
      eapply does_ext; [|rewrite <- (app_nil_r (a ++ c)); exact (does_then _ _ _ _ _ _ _ A (does_reset _))]. intros st. cbn [bind]. now rewrite docx_block_eq.
    + eapply does_ext; [|exact KT]. intros st. now rewrite docx_block_eq.
    + pose proof (does_then _ _ _ _ _ _ _ (does_style ds DQuote (Named (bs "Quote")) eq_refl) KT) as A.
      eapply does_ext; [|rewrite <- (app_nil_r (a ++ c)); exact (does_then _ _ _ _ _ _ _ A (does_reset _))]. intros st. cbn [bind]. now rewrite docx_block_eq.
Qed.
Lemma pieces_docx_ok l : forall e ds, env_ok e -> Forall piece_ok l ->
  exists ds', makes (pieces_blocks e l) ds (pieces_docx e l ds, ds').
Proof.
  induction l as [|p l IH]; intros e ds E F; cbn [pieces_blocks pieces_docx]; [exists ds; apply makes_nil|].
  inversion F as [|? ? H F']; subst. pose proof (piece_docx_ok e p ds E H) as K.
  destruct (piece_blocks e p) as (bl, e1), (piece_docx e p ds) as ((ps, ds1), e2). destruct K as (A & -> & C).
  destruct (IH e2 ds1 C F') as (ds' & D). exists ds'. eapply makes_app; eassumption.
Qed.
End Docx.

Lemma title_env_ok a : article_ok a -> env_ok (title_env a).
Proof.
  intros (H & _). unfold title_env. destruct (ar_title a) as [(t, l)|]; [|discriminate]. destruct H as (_ & F).
  assert (env_ok no_env) as E by discriminate. revert E. generalize no_env. induction F as [|x l H F IH]; intros e E; [exact E|].
  cbn [fold_left]. apply IH. exact (leaf_env_ok e (Setting (fst x) (snd x)) E H).
Qed.
Lemma article_docx_ok w fuel origin resolve img a : article_ok a ->
  exists g d, parse w fuel origin resolve (article_source a) = Ok g /\ render_docx img g = Ok d /\ Forall2 shows (article_docx a) (d_body d).
Proof.
  intros H. destruct (article_graph w fuel origin resolve a H) as (g & P & B & T). exists g.
  pose proof (title_env_ok a H) as E. destruct H as (HT & PO & _). unfold render_docx.
  destruct (pieces_docx_ok img (ar_pieces a) (title_env a) (mkDS (Named (bs "Normal")) false 0) E PO) as (ds' & M).
  assert (forall st, docx_blocks img st (a_blocks g) = docx_blocks img st (pieces_blocks (title_env a) (ar_pieces a))) as Q
    by (intros st; rewrite <- bare_docx_blocks, B; apply nest_docx).
  rewrite Q. unfold article_docx. unfold title_of, article_title in T.
  destruct (a_header g) as [h|], (ar_title a) as [(t, l)|]; cbn [option_map fst] in T; try discriminate T.
  - injection T as T. destruct HT as ((TR & _) & _). assert (Forall rich_line [t]) as F by (constructor; [exact TR|constructor]).
    destruct (part_runs _ (text_part_ok no_env [t] ltac:(discriminate) F)) as (rs & ER & FR).
    assert (runs_from_inlines false (hd_title h) = (false, rs)) as ER' by (rewrite <- bare_runs_from, T; exact ER).
    destruct (text_inlines_cons no_env [t]) as (x & r & EX); [discriminate|exact F|]. rewrite EX in T.
    destruct (hd_title h) as [|x' r']; [discriminate T|]. unfold inline_runs. change (wr_line_break new_writer) with false. rewrite ER'.
    set (d0 := add_body _ _). destruct (M (mkWriter (wr_page_break new_writer) false (wr_abstract new_writer) (wr_num new_writer) (wr_style new_writer)) d0) as (w' & d' & bl & E1 & _ & E3 & E4).
    { repeat split. }
    rewrite E1. exists d'. split; [exact P|]. split; [reflexivity|]. rewrite E3. constructor; [|exact E4].
    eexists. split; [reflexivity|]. repeat split. exact FR.
  - destruct (M new_writer default_docx) as (w' & d' & bl & E1 & _ & E3 & E4); [repeat split|]. rewrite E1.
    exists d'. split; [exact P|]. split; [reflexivity|]. rewrite E3. exact E4.
Qed.

(** ** The style of ordinary paragraphs *)
Lemma leaves_env l : forall e ds, snd (leaves_docx e l ds) = fold_left leaf_env l e.
Proof.
  induction l as [|x l IH]; intros e ds; [reflexivity|]. cbn [leaves_docx fold_left]. destruct (leaf_docx e x ds) as (a, ds1).
  specialize (IH (leaf_env e x) ds1). destruct (leaves_docx _ l ds1) as ((b, ds2), e2). exact IH.
Qed.
Lemma piece_env_docx e p ds : snd (piece_docx e p ds) = piece_env e p.
Proof.
  destruct p as [x|n t|v l|[]|b l last]; try reflexivity. cbn [piece_docx piece_env]. rewrite <- (leaves_env l e (box_style b ds)).
  destruct (leaves_docx e l _) as ((a, ds1), e1). destruct last; reflexivity.
Qed.
Definition style_after (e : env) (p : piece) (ds : dstate) : style := ds_style (snd (fst (piece_docx e p ds))).
Lemma resets_normal e p ds : resets p -> style_after e p ds = Named (bs "Normal").
Proof.
  unfold style_after. destruct p as [x|n t|v l|v|b l last]; try easy. intros H. cbn [piece_docx].
  destruct (leaves_docx e l _) as ((a, ds1), e1). destruct last; destruct b; try reflexivity; now elim H.
Qed.
Lemma leaf_keeps_style e x ds : leaf_keeps x -> ds_style (snd (leaf_docx e x ds)) = ds_style ds.
Proof. destruct x; try easy. cbn [leaf_keeps]. now intros ->. Qed.
Lemma keeps_style e p ds : keeps p -> style_after e p ds = ds_style ds.
Proof.
  unfold style_after. destruct p as [x|n t|v l|v|b l last]; try easy; cbn [keeps piece_docx]; [apply leaf_keeps_style|now intros ->|].
  intros (-> & F).
  assert (forall l ds e, Forall leaf_keeps l -> ds_style (snd (fst (leaves_docx e l ds))) = ds_style ds) as K.
  { clear. induction l as [|x l IH]; intros ds e F; [reflexivity|]. inversion F; subst. cbn [leaves_docx]. pose proof (leaf_keeps_style e x ds H1) as S.
    destruct (leaf_docx e x ds) as (a, ds1). specialize (IH ds1 (leaf_env e x) H2). destruct (leaves_docx _ l ds1) as ((b, ds2), e2). cbn in *. congruence. }
  specialize (K l (box_style Open ds) e F). destruct (leaves_docx e l _) as ((a, ds1), e1). destruct last; exact K.
Qed.
Lemma pieces_docx_app a b : forall e ds, exists ds' , pieces_docx e (a ++ b) ds = pieces_docx e a ds ++ pieces_docx (fold_left piece_env a e) b ds'
  /\ (forall s, ds_style ds = s -> Forall keeps a -> ds_style ds' = s)
  /\ (forall a1 p a2, a = a1 ++ p :: a2 -> resets p -> Forall keeps a2 -> ds_style ds' = Named (bs "Normal")).
Proof.
  induction a as [|p a IH]; intros e ds; cbn [app pieces_docx fold_left].
  - exists ds. split; [reflexivity|]. split; [auto|]. intros [|] ? ? H; discriminate H.
  - pose proof (piece_env_docx e p ds) as E. pose proof (keeps_style e p ds) as K. pose proof (resets_normal e p ds) as N. unfold style_after in *.
    destruct (piece_docx e p ds) as ((ps, ds1), e1). cbn [snd fst] in *. subst e1.
    destruct (IH (piece_env e p) ds1) as (ds' & A & B & C). exists ds'. split; [now rewrite A, app_assoc|]. split.
    + intros s S F. inversion F; subst. apply B; auto.
    + intros [|x a1] q a2 H R F; injection H as -> ->; [|eauto]. apply B; auto.
Qed.
Lemma normal_paragraph w fuel origin resolve img a pre l post : article_ok a -> ar_pieces a = pre ++ Leaf (Para l) :: post ->
  Forall keeps pre \/ (exists before p after, pre = before ++ p :: after /\ resets p /\ Forall keeps after) ->
  exists g d b1 p b2, parse w fuel origin resolve (article_source a) = Ok g /\ render_docx img g = Ok d
    /\ d_body d = b1 ++ BPara p :: b2 /\ pa_style p = bs "Normal"
    /\ Forall2 part_run (text_parts (fold_left piece_env pre (title_env a)) l) (pa_runs p).
Proof.
  intros H E K. destruct (article_docx_ok w fuel origin resolve img a H) as (g & d & P & D & S). exists g, d.
  unfold article_docx in S. rewrite E in S. destruct (pieces_docx_app pre (Leaf (Para l) :: post) (title_env a) (mkDS (Named (bs "Normal")) false 0)) as (ds' & A & B & C).
  rewrite A, app_assoc in S. apply Forall2_app_inv_l in S as (b1 & b2 & S1 & S2 & ED). cbn [pieces_docx piece_docx leaf_docx put app] in S2.
  inversion S2 as [|? b ? b3 (p & -> & Sp & _ & _ & Sr) S3]; subst. exists b1, p, b3. split; [exact P|]. split; [exact D|]. split; [exact ED|]. split; [|exact Sr].
  cbn [dp_style] in Sp. assert (ds_style ds' = Named (bs "Normal")) as Q.
  { destruct K as [K|(x & q & y & -> & R & F)]; [now apply B|eapply C; eauto]. }
  rewrite Q in Sp. exact Sp.
Qed.

(** ** The whole command *)
Lemma article_run_docx w fuel e c a : c_backend c = BDocx -> c_unresolved c = false -> source_text w e c (article_source a) ->
  article_ok a ->
  exists o n d, destination c o /\ Forall2 shows (article_docx a) (d_body d)
  /\ let counted := if c_count c then [EvCount n (c_file c)] else [] in
     match o with
     | None => Cli.run w fuel e c = (counted, Exit)
     | Some p => e_writable e p = true -> Cli.run w fuel e c = (counted ++ [EvCreate p; EvWrite p (CDocxFile d)], Ok tt)
     end.
Proof.
  intros B U S H. destruct (article_docx_ok w fuel (origin_directory e (c_file c)) (negb (c_unresolved c)) (e_img e) a H) as (g & d & P & D & F).
  exists (read_output c), (word_count g), d. split; [apply destination_ok|]. split; [exact F|]. unfold Cli.run.
  assert (read_input w e c = Ok (article_source a)) as ->.
  { unfold read_input. destruct S as [(E & I)|(E & I)].
    - rewrite E. cbn. now rewrite I.
    - apply beqb_neq in E. now rewrite E, I. }
  cbn [lift]. rewrite P. cbn [lift]. rewrite B, U. cbv zeta. destruct (read_output c) as [p|]; [|now rewrite app_nil_r].
  intros ->. cbn [negb]. now rewrite D.
Qed.
