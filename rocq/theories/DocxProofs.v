(** * Lemmas on the docx output *)
From Verif Require Import Base World Location Token Meta Inline Block Asg SpecLevel Docx SpecScan SpecText SpecDocx ScanLemmas GraphLemmas LevelProofs TreeInd DocGraph TextProofs.
Local Open Scope char_scope.
Local Open Scope nat_scope.

(** ** C36 *)
Definition defined (d : docx) : list bytes := map fst (d_styles d).
Definition bases_ok (d : docx) : Prop := Forall (fun e => match snd e with Some b => In b (defined d) | None => True end) (d_styles d).
Definition base3 (d : docx) : Prop := In (bs "Normal") (defined d) /\ In (bs "No Spacing") (defined d) /\ In (bs "Title") (defined d).
Definition inv (st : writer * docx) : Prop :=
  let (w, d) := st in
  NoDup (defined d) /\ base3 d /\ bases_ok d /\ In (style_id (wr_style w)) (defined d) /\ Forall (fun s => In s (defined d)) (styles_used d).

Lemma used_body d b : styles_used (add_body d b) = styles_used d ++ para_styles b.
Proof. unfold styles_used, add_body. cbn [d_body]. rewrite flat_map_app. cbn [flat_map]. now rewrite app_nil_r. Qed.
Lemma inv_add_body w d b : inv (w, d) -> Forall (fun s => In s (defined d)) (para_styles b) -> inv (w, add_body d b).
Proof.
  intros (N & B & Bo & S & U) F. repeat split; try apply B; try assumption. rewrite used_body. now apply Forall_app.
Qed.
Lemma inv_style w w' d : inv (w, d) -> wr_style w' = wr_style w -> inv (w', d).
Proof. intros (N & B & Bo & S & U) E. repeat split; try apply B; try assumption. now rewrite E. Qed.
Lemma style_defined s d : s <> DThematicBreak -> In (style_id s) (defined (add_style d s)).
Proof.
  intros N. assert (generated_id s = style_id s) as E by (destruct s; congruence || reflexivity).
  unfold add_style. fold (defined d). destruct (memb (generated_id s) (defined d)) eqn:M.
  - apply memb_In in M. congruence.
  - unfold defined. cbn. rewrite map_app, in_app_iff. right. left. exact E.
Qed.
Lemma add_style_grows s d x : In x (defined d) -> In x (defined (add_style d s)).
Proof.
  intros I. unfold add_style. destruct (memb _ _); [exact I|]. unfold defined. cbn. rewrite map_app, in_app_iff. now left.
Qed.
Lemma inv_set_style st s : inv st -> s <> DThematicBreak -> inv (set_style st s).
Proof.
  destruct st as [w d]. intros (N & B & Bo & S & U) T. cbn. split; [|split; [|split; [|split]]].
  - unfold add_style. fold (defined d). destruct (memb (generated_id s) (defined d)) eqn:M; [exact N|].
    unfold defined. cbn. rewrite map_app. cbn. apply NoDup_Add with (a := generated_id s) (l := map fst (d_styles d)).
    + rewrite <- (app_nil_r (map fst (d_styles d))) at 1. apply Add_app.
    + split; [exact N|]. intros I. apply memb_In in I. fold (defined d) in I. congruence.
  - destruct B as (B1 & B2 & B3). repeat split; now apply add_style_grows.
  - unfold add_style. fold (defined d). destruct (memb (generated_id s) (defined d)); [exact Bo|].
    assert (forall x, In x (defined d) -> In x (defined (mkDocx (d_styles d ++ [style_entry s]) (d_body d) (d_abstract d) (d_nums d)))) as G.
    { intros x I. unfold defined. cbn. rewrite map_app, in_app_iff. now left. }
    unfold bases_ok. cbn [d_styles]. apply Forall_app. split.
    + eapply Forall_impl; [|exact Bo]. intros [k [b|]]; [apply G|trivial].
    + constructor; [|constructor]. destruct B as (B1 & B2 & B3). destruct s; cbn [snd style_entry style_base]; try exact I; now apply G.
  - cbn [wr_style]. now apply style_defined.
  - assert (styles_used (add_style d s) = styles_used d) as -> by (unfold add_style; now destruct (memb _ _)).
    eapply Forall_impl; [|exact U]. intros x. apply add_style_grows.
Qed.
Lemma inv_reset st : inv st -> inv (reset_style st).
Proof. destruct st as [w d]. intros (N & B & Bo & S & U). repeat split; try apply B; try assumption. Qed.
Lemma inv_paragraph st num runs : inv st -> inv (add_paragraph st num runs).
Proof.
  destruct st as [w d]. intros H. cbn. apply inv_add_body; [now apply inv_style with w|]. cbn. constructor; [|constructor]. apply H.
Qed.
Lemma inv_runs st l : inv st -> inv (fst (inline_runs st l)).
Proof. destruct st as [w d]. intros H. unfold inline_runs. destruct (runs_from_inlines _ _). cbn [fst]. now apply inv_style with w. Qed.
Lemma inv_inlines st num l : inv st -> inv (add_inlines_paragraph st num l).
Proof.
  intros H. unfold add_inlines_paragraph. pose proof (inv_runs st l H) as K. destruct (inline_runs st l) as [st' rs]. now apply inv_paragraph.
Qed.
Lemma inv_list_start st v : inv st -> inv (docx_list_start st v).
Proof.
  destruct st as [w d]. intros H. unfold docx_list_start.
  assert (forall s, s <> DThematicBreak -> inv (set_style (mkWriter (wr_page_break w) (wr_line_break w) (wr_abstract w) (S (wr_num w)) (wr_style w), d) s)) as K.
  { intros s T. apply inv_set_style; [now apply inv_style with w|exact T]. }
  destruct v; [now apply K|]. specialize (K DListParagraph). destruct (set_style _ DListParagraph) as [w1 d1]. specialize (K ltac:(discriminate)).
  destruct (wr_abstract w1 =? 0); [|exact K]. destruct K as (N & B & Bo & S & U). repeat split; try apply B; assumption.
Qed.
Lemma inv_fold k : forall st, inv st -> inv (fold_left (fun s b => add_inlines_paragraph s None (block_inlines b)) k st).
Proof. induction k as [|b k IH]; intros st H; [exact H|]. apply IH. now apply inv_inlines. Qed.
Lemma inv_list_item st p k : inv st -> inv (docx_list_item st p k).
Proof.
  intros H. unfold docx_list_item. pose proof (inv_inlines st (Some (wr_num (fst st))) p H) as K. destruct k as [|b k]; [exact K|].
  apply inv_reset. apply inv_fold. now apply inv_set_style.
Qed.
Lemma inv_rows cells : forall st cols num idx cur rows st' rows', inv st -> Forall (fun p => pa_style p = bs "Table") cur ->
  Forall (fun p => pa_style p = bs "Table") (List.concat rows) -> In (bs "Table") (defined (snd st)) ->
  table_rows st cols num idx cells cur rows = Ok (st', rows') ->
  inv st' /\ Forall (fun p => pa_style p = bs "Table") (List.concat rows') /\ In (bs "Table") (defined (snd st')).
Proof.
  induction cells as [|b cells IH]; intros st cols num idx cur rows st' rows' H C R T E; cbn [table_rows] in E.
  - injection E as <- <-. auto.
  - pose proof (inv_runs st (block_inlines b) H) as K. assert (In (bs "Table") (defined (snd (fst (inline_runs st (block_inlines b)))))) as T'.
    { destruct st as [w d]. unfold inline_runs. destruct (runs_from_inlines _ _). exact T. }
    destruct (inline_runs st (block_inlines b)) as [st1 rs]. cbn [fst] in K, T'.
    assert (Forall (fun p => pa_style p = bs "Table") (cur ++ [mkPara (style_id DTable) None false rs])) as C'.
    { apply Forall_app. split; [exact C|]. repeat constructor. }
    apply bind_ok in E as (brk & E1 & E). destruct brk.
    + eapply IH; try exact E; auto. rewrite concat_app. cbn [List.concat]. rewrite app_nil_r. now apply Forall_app.
    + eapply IH; try exact E; auto.
Qed.
Lemma inv_table st m k st' : inv st -> docx_table st m k = Ok st' -> inv st'.
Proof.
  intros H E. unfold docx_table in E. pose proof (inv_set_style st DTable H ltac:(discriminate)) as K.
  assert (In (bs "Table") (defined (snd (set_style st DTable)))) as T.
  { destruct st as [w d]. cbn [set_style snd]. apply (style_defined DTable). discriminate. }
  apply bind_ok in E as (cols & _ & E). apply bind_ok in E as ([[w1 d1] rows] & E1 & E).
  injection E as <-. apply inv_rows in E1 as (I & F & T1); auto; [|constructor].
  apply inv_add_body; [exact I|]. cbn [para_styles]. apply Forall_map. eapply Forall_impl; [|exact F]. intros p ->. exact T1.
Qed.

Lemma inv_block img b : forall st st', no_thematic_break b -> inv st -> docx_block img st b = Ok st' -> inv st'.
Proof.
  induction b as [h m k loc IH] using block_ind'. intros st st' T H E.
  assert (h <> HBreak BThematic -> Forall no_thematic_break k) as Tk.
  { intros N. assert (fold_right and True (map no_thematic_break k)) as T'.
    { destruct h as [| | | | |[]| | | |]; try exact T. congruence. }
    clear -T'. induction k; constructor; [apply T'|apply IHk; apply T']. }
  set (go := fix go (st : writer * docx) (l : list block) : dres (writer * docx) :=
          match l with [] => Ok st | x :: r => let* st' := docx_block img st x in go st' r end) in *.
  assert (forall st st', h <> HBreak BThematic -> inv st -> go st k = Ok st' -> inv st') as G.
  { clear E. intros s s' N Hs Es. specialize (Tk N). clear N T H h m loc.
    revert s Hs Es. induction k as [|x k IHk]; intros s Hs Es; [now injection Es as <-|].
    inversion IH. inversion Tk. subst. cbn in Es. apply bind_ok in Es as (s1 & E1 & E2). eauto. }
  cbn [docx_block] in E. fold go in E.
  destruct h as [id t lv|v|mk p| |t p|[]|t c|n f d i|n v d t|i].
  - apply (G _ _ ltac:(discriminate)) in E; [exact E|]. destruct t; [exact H|]. apply inv_reset, inv_inlines, inv_set_style; [exact H|discriminate].
  - apply (G _ _ ltac:(discriminate)) in E; [exact E|]. now apply inv_list_start.
  - injection E as <-. now apply inv_list_item.
  - now apply (G _ _ ltac:(discriminate)) in E.
  - apply (G _ _ ltac:(discriminate)) in E; [exact E|].
    repeat (apply inv_inlines, inv_set_style; [|discriminate]). exact H.
  - destruct st as [w d]. injection E as <-. now apply inv_style with w.
  - destruct T.
  - apply bind_ok in E as (_ & _ & E). destruct st as [w d]. injection E as <-. apply inv_add_body; [exact H|constructor].
  - injection E as <-. apply inv_inlines. destruct n; try exact H; (apply inv_set_style; [exact H|discriminate]).
  - assert (forall name st', (let st0 := match v with
                        | Some x => add_paragraph (set_style st (DSectionTitle name)) None [text_run (variant_display x)]
                        | None => st
                        end in
              let st := match t with
                        | [] => st0
                        | _ => add_inlines_paragraph (set_style st0 (DSectionTitle name)) None t
                        end in
              let* st := go (set_style st (DSectionText name)) k in
              Ok (reset_style st)) = Ok st' -> inv st') as P.
    { intros name s' Es. apply bind_ok in Es as (s1 & E1 & E2). injection E2 as <-. apply inv_reset.
      apply (G _ _ ltac:(discriminate)) in E1; [exact E1|]. apply inv_set_style; [|discriminate].
      assert (inv (match v with
                        | Some x => add_paragraph (set_style st (DSectionTitle name)) None [text_run (variant_display x)]
                        | None => st
                        end)) as K.
      { destruct v; [|exact H]. apply inv_paragraph, inv_set_style; [exact H|discriminate]. }
      destruct t; [exact K|]. apply inv_inlines, inv_set_style; [exact K|discriminate]. }
    destruct n.
    + exact (P _ _ E).
    + exact (P _ _ E).
    + exact (P _ _ E).
    + now apply (G _ _ ltac:(discriminate)) in E.
    + apply bind_ok in E as (s1 & E1 & E2). injection E2 as <-. apply inv_reset.
      apply (G _ _ ltac:(discriminate)) in E1; [|apply inv_set_style; [exact H|discriminate]].
      destruct m as [md|]; [|exact E1]. destruct (mget _ _); [|exact E1]. now apply inv_paragraph.
    + eapply inv_table; eassumption.
    + now injection E as <-.
  - now injection E as <-.
Qed.
Lemma inv_blocks img l : forall st st', Forall no_thematic_break l -> inv st -> docx_blocks img st l = Ok st' -> inv st'.
Proof.
  induction l as [|b l IH]; intros st st' F H E; cbn in E; [now injection E as <-|]. inversion F. subst.
  apply bind_ok in E as (s1 & E1 & E2). eapply IH; [eassumption| |exact E2]. eapply inv_block; eassumption.
Qed.
Lemma inv_start : inv (new_writer, default_docx).
Proof.
  repeat split; try (vm_compute; tauto).
  - vm_compute. repeat constructor; cbn; intuition discriminate.
  - repeat constructor; vm_compute; tauto.
  - constructor.
Qed.
Lemma docx_styles img a d : Forall no_thematic_break (a_blocks a) -> render_docx img a = Ok d ->
  NoDup (map fst (d_styles d)) /\ Forall (fun s => In s (map fst (d_styles d))) (styles_used d)
  /\ Forall (fun e => match snd e with Some b => In b (map fst (d_styles d)) | None => True end) (d_styles d).
Proof.
  intros F E. unfold render_docx in E. apply bind_ok in E as ([w d'] & E & K). injection K as <-.
  apply inv_blocks in E; [destruct E as (N & B & Bo & S & U); auto|exact F|].
  destruct (a_header a) as [h|]; [|apply inv_start]. destruct (hd_title h) as [|x t]; [apply inv_start|].
  pose proof (inv_runs _ (x :: t) inv_start) as K. destruct (inline_runs _ (x :: t)) as [[w1 d1] rs]. cbn [fst] in K.
  apply inv_add_body; [exact K|]. constructor; [|constructor]. apply K.
Qed.

(** ** C34 *)
Lemma mget_unique {V} k (v : V) m : NoDup (map fst m) -> In (k, v) m -> mget k m = Some v.
Proof.
  induction m as [|[k' v'] m IH]; intros N I; [destruct I|]. inversion N. subst. cbn. destruct I as [[= -> ->]|I].
  - now rewrite beqb_refl.
  - destruct (beqb k k') eqn:E; [|now apply IH]. apply beqb_eq in E as ->. exfalso. apply H1. apply in_map_iff. now exists (k', v).
Qed.
Lemma parse_decimal s k : decimal s k -> (k < 2 ^ 64)%N -> parse_usize s = Some k.
Proof.
  intros D L. pose proof D as D'. apply decimal_val in D' as [N E]. unfold parse_usize.
  assert ((match s with c :: r => if Ascii.eqb c "+" then r else s | [] => s end) = s) as ->.
  { destruct s as [|c r]; [congruence|]. destruct (Ascii.eqb c "+") eqn:Ec; [|reflexivity]. apply Ascii.eqb_eq in Ec as ->. discriminate. }
  destruct s; [congruence|]. rewrite E. apply N.ltb_lt in L. now rewrite L.
Qed.
Lemma runs_kept st l : exists lb lb', runs_from_inlines lb l = (lb', snd (inline_runs st l)).
Proof. destruct st as [w d]. unfold inline_runs. destruct (runs_from_inlines (wr_line_break w) l) eqn:E. exists (wr_line_break w). eexists. exact E. Qed.

Lemma Forall2_len {A B} (R : A -> B -> Prop) l l' : Forall2 R l l' -> List.length l = List.length l'.
Proof. induction 1; cbn; congruence. Qed.
Lemma concat_length {A} c (l : list (list A)) : Forall (fun r => List.length r = c) l -> List.length (List.concat l) = c * List.length l.
Proof. induction 1 as [|x l E _ IH]; cbn [List.concat List.length]; [lia|]. rewrite app_length, IH, E. lia. Qed.
Lemma rows_loop c cells : 2 <= c -> forall st num cur rows done st' rows',
  num = List.length done + List.length cells ->
  Forall (fun r => List.length r = c) rows -> Forall2 cell_para done (List.concat rows ++ cur) ->
  (cells <> [] -> List.length cur < c) ->
  (cells = [] -> done = [] /\ rows = [] \/ 1 <= List.length cur <= c) ->
  table_rows st (N.of_nat c) num (List.length done) cells cur rows = Ok (st', rows') ->
  Forall (fun r => List.length r = c) rows'
  /\ Forall2 cell_para (firstn (c * ((num - 1) / c)) (done ++ cells)) (List.concat rows')
  /\ d_body (snd st') = d_body (snd st).
Proof.
  intros C. induction cells as [|b cells IH]; intros st num cur rows done st' rows' En R D L X E; cbn [table_rows] in E.
  - injection E as <- <-. split; [exact R|]. split; [|reflexivity]. rewrite app_nil_r. cbn in En. rewrite Nat.add_0_r in En.
    pose proof (Forall2_len _ _ _ D) as Len. rewrite app_length, (concat_length c) in Len by exact R.
    destruct (X eq_refl) as [[-> ->]|[X1 X2]]; [rewrite firstn_nil; constructor|].
    assert ((num - 1) / c = List.length rows) as ->.
    { symmetry. apply Nat.div_unique with (r := List.length cur - 1); lia. }
    apply Forall2_app_inv_r in D as (d1 & d2 & D1 & D2 & ->).
    replace (c * List.length rows) with (List.length d1) by (rewrite (Forall2_len _ _ _ D1); now apply concat_length).
    rewrite firstn_app, firstn_all, Nat.sub_diag, app_nil_r. exact D1.
  - pose proof (runs_kept st (block_inlines b)) as RK.
    assert (d_body (snd (fst (inline_runs st (block_inlines b)))) = d_body (snd st)) as DB.
    { destruct st as [w d]. unfold inline_runs. now destruct (runs_from_inlines _ _). }
    destruct (inline_runs st (block_inlines b)) as [st1 rs]. cbn [fst snd] in *.
    specialize (L ltac:(discriminate)).
    pose proof (Forall2_len _ _ _ D) as Len. rewrite app_length, (concat_length c) in Len by exact R.
    apply bind_ok in E as (brk & E1 & E).
    replace (done ++ b :: cells) with ((done ++ [b]) ++ cells) by now rewrite <- app_assoc.
    replace (S (List.length done)) with (List.length (done ++ [b])) in E by (rewrite app_length; cbn; lia).
    set (p := mkPara (style_id DTable) None false rs) in *.
    assert (Forall2 cell_para (done ++ [b]) (List.concat rows ++ (cur ++ [p]))) as D'.
    { rewrite app_assoc. apply Forall2_app; [exact D|]. constructor; [|constructor]. split; [reflexivity|]. split; [reflexivity|exact RK]. }
    unfold docx_row_break in E1. assert ((N.of_nat c =? 0)%N = false) as C0 by (apply N.eqb_neq; lia). rewrite C0 in E1.
    assert (brk = (((List.length done + 1) mod c =? 0) && negb (List.length done + 1 =? num))) as ->.
    { destruct (List.length done =? 0) eqn:Z.
      - injection E1 as <-. apply Nat.eqb_eq in Z. rewrite Z. rewrite Nat.mod_small by lia. reflexivity.
      - injection E1 as <-. f_equal. rewrite <- Nat2N.inj_mod. destruct ((List.length done + 1) mod c =? 0) eqn:M.
        + apply Nat.eqb_eq in M. now rewrite M.
        + apply Nat.eqb_neq in M. apply N.eqb_neq. lia. }
    assert ((List.length done + 1) mod c = (List.length cur + 1) mod c) as M.
    { rewrite Len. replace (c * List.length rows + List.length cur + 1) with (List.length cur + 1 + List.length rows * c) by lia. now apply Nat.mod_add; lia. }
    rewrite M in E. clear M.
    destruct (((List.length cur + 1) mod c =? 0) && negb (List.length done + 1 =? num)) eqn:B.
    + apply andb_true_iff in B as [B1 B2]. apply Nat.eqb_eq in B1. apply negb_true_iff, Nat.eqb_neq in B2.
      assert (List.length cur + 1 = c) as Lc.
      { destruct (Nat.eq_dec (List.length cur + 1) c); [assumption|]. rewrite Nat.mod_small in B1; lia. }
      apply (IH st1 num) in E; [now rewrite <- DB| | | | |].
      * rewrite app_length. cbn [List.length] in *. lia.
      * apply Forall_app. split; [exact R|]. constructor; [|constructor]. rewrite app_length. cbn. lia.
      * rewrite concat_app. cbn [List.concat]. now rewrite !app_nil_r.
      * cbn. lia.
      * intros ->. cbn [List.length] in *. lia.
    + apply (IH st1 num) in E; [now rewrite <- DB| |exact R|exact D'| |].
      * rewrite app_length. cbn [List.length] in *. lia.
      * intros N. rewrite app_length. cbn [List.length]. apply andb_false_iff in B as [B|B].
        -- apply Nat.eqb_neq in B. destruct (Nat.eq_dec (List.length cur + 1) c) as [Q|Q]; [|lia]. rewrite Q, Nat.mod_same in B; lia.
        -- apply negb_false_iff, Nat.eqb_eq in B. destruct cells; [congruence|]. cbn [List.length] in *. lia.
      * intros ->. right. rewrite app_length. cbn. lia.
Qed.
Lemma docx_table_rows st m k c st' : columns m c -> 2 <= c -> docx_table st m k = Ok st' ->
  exists rows, d_body (snd st') = d_body (snd st) ++ [BTable rows]
    /\ Forall (fun r => List.length r = c) rows
    /\ Forall2 cell_para (firstn (c * ((List.length k - 1) / c)) k) (List.concat rows).
Proof.
  intros (md & s & -> & I & N & D & B) C E. unfold docx_table in E. rewrite (mget_unique _ _ _ N I) in E.
  rewrite (parse_decimal _ _ D B) in E. cbn [bind] in E. apply bind_ok in E as ([[w1 d1] rows] & E1 & E). injection E as <-.
  apply (rows_loop c k C _ _ _ _ []) in E1; [|reflexivity|constructor|constructor|cbn; lia|now left].
  destruct E1 as (R & F & DB). exists rows. cbn [snd add_body d_body]. split; [|auto]. cbn [snd] in DB. rewrite DB.
  destruct st as [w d]. cbn. unfold add_style. now destruct (memb _ _).
Qed.

Definition grows (st st' : writer * docx) : Prop := exists l, d_body (snd st') = d_body (snd st) ++ l.
Lemma grows_refl st : grows st st.
Proof. exists []. now rewrite app_nil_r. Qed.
Lemma grows_trans a b c : grows a b -> grows b c -> grows a c.
Proof. intros (l & E) (l' & E'). exists (l ++ l'). now rewrite E', E, app_assoc. Qed.
Lemma grows_same st st' : d_body (snd st') = d_body (snd st) -> grows st st'.
Proof. exists []. now rewrite app_nil_r. Qed.
Lemma grows_set st s : grows st (set_style st s).
Proof. apply grows_same. destruct st as [w d]. cbn. unfold add_style. now destruct (memb _ _). Qed.
Lemma grows_reset st : grows st (reset_style st).
Proof. apply grows_same. now destruct st. Qed.
Lemma grows_paragraph st num runs : grows st (add_paragraph st num runs).
Proof. destruct st as [w d]. eexists. reflexivity. Qed.
Lemma grows_inlines st num l : grows st (add_inlines_paragraph st num l).
Proof.
  destruct st as [w d]. unfold add_inlines_paragraph, inline_runs. destruct (runs_from_inlines _ _). eexists. reflexivity.
Qed.
Lemma grows_list_start st v : grows st (docx_list_start st v).
Proof.
  apply grows_same. destruct st as [w d]. destruct v; cbn; unfold add_style; destruct (memb _ _); cbn; try reflexivity; now destruct (wr_abstract w =? 0).
Qed.
Lemma grows_list_item st p k : grows st (docx_list_item st p k).
Proof.
  unfold docx_list_item. destruct k as [|b k]; [apply grows_inlines|]. eapply grows_trans; [|apply grows_reset].
  eapply grows_trans; [apply (grows_inlines st (Some (wr_num (fst st))) p)|]. eapply grows_trans; [apply (grows_set _ DListParagraphContinue)|].
  cbv zeta. match goal with |- grows ?s _ => generalize s end. generalize (b :: k).
  clear. induction l as [|b k IH]; intros st; [apply grows_refl|]. eapply grows_trans; [apply (grows_inlines st None (block_inlines b))|apply IH].
Qed.
Lemma grows_rows cells : forall st cols num idx cur rows st' rows',
  table_rows st cols num idx cells cur rows = Ok (st', rows') -> grows st st'.
Proof.
  induction cells as [|b cells IH]; intros st cols num idx cur rows st' rows' E; cbn [table_rows] in E.
  - injection E as <- <-. apply grows_refl.
  - destruct (inline_runs st (block_inlines b)) as [st1 rs] eqn:Er. assert (grows st st1) as G.
    { apply grows_same. destruct st as [w d]. unfold inline_runs in Er. destruct (runs_from_inlines _ _). now injection Er as <- <-. }
    eapply grows_trans; [exact G|]. apply bind_ok in E as (brk & _ & E). destruct brk; eapply IH; exact E.
Qed.
Lemma grows_table st m k st' : docx_table st m k = Ok st' -> grows st st'.
Proof.
  intros E. unfold docx_table in E. apply bind_ok in E as (cols & _ & E). apply bind_ok in E as ([[w1 d1] rows] & E1 & E). injection E as <-.
  eapply grows_trans; [apply grows_set|]. eapply grows_trans; [eapply grows_rows; exact E1|]. eexists. reflexivity.
Qed.
Ltac grow := eauto using grows_refl, grows_set, grows_reset, grows_paragraph, grows_inlines, grows_list_start, grows_list_item, grows_table.
(** the steps before and after the blocks inside a block *)
Lemma block_steps img h m k loc st st' :
  let go := fix go (st : writer * docx) (l : list block) : dres (writer * docx) :=
          match l with [] => Ok st | x :: r => let* st' := docx_block img st x in go st' r end in
  docx_block img st (Blk h m k loc) = Ok st' ->
  match h with
  | HSection _ _ _ | HList _ | HDList | HDListItem _ _ => exists st1 st2, grows st st1 /\ go st1 k = Ok st2 /\ grows st2 st'
  | HParent PTable _ _ _ | HParent PFootnotes _ _ _ => grows st st'
  | HParent _ _ _ _ => exists st1 st2, grows st st1 /\ go st1 k = Ok st2 /\ grows st2 st'
  | _ => grows st st'
  end.
Proof.
  intros go E. cbn [docx_block] in E. fold go in E.
  destruct h as [id t lv|v|mk p| |t p|[]|t c|n f d i|n v d t|i].
  - eexists _, _. split; [|split; [exact E|grow]]. destruct t; [grow|]. eapply grows_trans; [|apply grows_reset]. eapply grows_trans; [apply grows_set|grow].
  - eexists _, _. split; [|split; [exact E|grow]]. grow.
  - injection E as <-. grow.
  - eexists _, _. split; [|split; [exact E|grow]]. grow.
  - eexists _, _. split; [|split; [exact E|grow]]. repeat (eapply grows_trans; [|apply grows_inlines]; eapply grows_trans; [|apply grows_set]). grow.
  - destruct st as [w d'']. injection E as <-. apply grows_same. reflexivity.
  - injection E as <-. eapply grows_trans; [apply grows_set|grow].
  - apply bind_ok in E as (_ & _ & E). destruct st as [w d'']. injection E as <-. eexists. reflexivity.
  - injection E as <-. eapply grows_trans; [|apply grows_inlines]. destruct n; grow.
  - assert (forall name st', (let st0 := match v with
                        | Some x => add_paragraph (set_style st (DSectionTitle name)) None [text_run (variant_display x)]
                        | None => st
                        end in
              let st := match t with
                        | [] => st0
                        | _ => add_inlines_paragraph (set_style st0 (DSectionTitle name)) None t
                        end in
              let* st := go (set_style st (DSectionText name)) k in
              Ok (reset_style st)) = Ok st' -> exists st1 st2, grows st st1 /\ go st1 k = Ok st2 /\ grows st2 st') as P.
    { intros name s' Es. apply bind_ok in Es as (s1 & E1 & E2). injection E2 as <-. eexists _, _. split; [|split; [exact E1|grow]].
      eapply grows_trans; [|apply grows_set].
      assert (grows st (match v with
                        | Some x => add_paragraph (set_style st (DSectionTitle name)) None [text_run (variant_display x)]
                        | None => st
                        end)) as K.
      { destruct v; [|grow]. eapply grows_trans; [apply grows_set|grow]. }
      destruct t; [exact K|]. eapply grows_trans; [exact K|]. eapply grows_trans; [apply grows_set|grow]. }
    destruct n.
    + exact (P _ _ E).
    + exact (P _ _ E).
    + exact (P _ _ E).
    + eexists _, _. split; [|split; [exact E|grow]]. grow.
    + apply bind_ok in E as (s1 & E1 & E2). injection E2 as <-. eexists _, _. split; [|split; [exact E1|]]; [grow|].
      eapply grows_trans; [|apply grows_reset]. destruct m as [md|]; [|grow]. destruct (mget _ _); grow.
    + grow.
    + injection E as <-. grow.
  - injection E as <-. grow.
Qed.
Lemma grows_block img b : forall st st', docx_block img st b = Ok st' -> grows st st'.
Proof.
  induction b as [h m k loc IH] using block_ind'. intros st st' E. apply block_steps in E.
  set (go := fix go (st : writer * docx) (l : list block) : dres (writer * docx) :=
          match l with [] => Ok st | x :: r => let* st' := docx_block img st x in go st' r end) in *.
  assert (forall st st', go st k = Ok st' -> grows st st') as G.
  { clear E. induction k as [|x k IHk]; intros s s' Es; [injection Es as <-; grow|]. inversion IH. subst.
    cbn in Es. apply bind_ok in Es as (s1 & E1 & E2). eapply grows_trans; eauto. }
  destruct h as [| | | | | | | |[] ? ? ?|]; try exact E; destruct E as (s1 & s2 & G1 & E & G2);
    (eapply grows_trans; [exact G1|]; eapply grows_trans; [apply (G _ _ E)|exact G2]).
Qed.
(** where a block inside is rendered *)
Lemma within_step img b x : within b x -> forall st st', docx_block img st x = Ok st' ->
  exists s s', docx_block img s b = Ok s' /\ grows s' st'.
Proof.
  induction 1 as [b|b x h m k loc W IH I H]; intros st st' E; [exists st, st'; split; [exact E|grow]|].
  apply block_steps in E.
  set (go := fix go (st : writer * docx) (l : list block) : dres (writer * docx) :=
          match l with [] => Ok st | x :: r => let* st' := docx_block img st x in go st' r end) in *.
  assert (forall st st', go st k = Ok st' -> exists s s', docx_block img s b = Ok s' /\ grows s' st') as G.
  { clear E. induction k as [|y k IHk]; [destruct I|]. intros s s' Es. cbn in Es. apply bind_ok in Es as (s1 & E1 & E2). destruct I as [->|I].
    - apply IH in E1 as (u & u' & E1 & G). exists u, u'. split; [exact E1|]. eapply grows_trans; [exact G|].
      clear -E2. revert s1 E2. induction k as [|y k IHk]; intros s1 E; [injection E as <-; grow|]. cbn in E.
      apply bind_ok in E as (s2 & E1 & E2). eapply grows_trans; [eapply grows_block; exact E1|]. now apply IHk.
    - now apply (IHk I _ _ E2). }
  destruct h as [| | | | | | | |[] ? ? ?|]; try destruct H; try congruence; destruct E as (s1 & s2 & G1 & E & G2);
    (apply G in E as (s & s' & E & G3); exists s, s'; split; [exact E|]; eapply grows_trans; eauto).
Qed.
Lemma docx_tables img a d x v dl t m k loc c : render_docx img a = Ok d -> In x (a_blocks a) ->
  within (Blk (HParent PTable v dl t) m k loc) x -> columns m c -> 2 <= c ->
  exists rows, In rows (tables d) /\ Forall (fun r => List.length r = c) rows
    /\ Forall2 cell_para (firstn (c * ((List.length k - 1) / c)) k) (List.concat rows).
Proof.
  intros E I W C C2. unfold render_docx in E. apply bind_ok in E as ([w d'] & E & K). injection K as <-.
  match type of E with docx_blocks img ?s _ = _ => set (st := s) in E; clearbody st end.
  assert (exists s s', docx_block img s (Blk (HParent PTable v dl t) m k loc) = Ok s' /\ grows s' (w, d')) as (s & s' & Et & (l & G)).
  { revert st E. induction (a_blocks a) as [|y bl IH]; [destruct I|]. intros st E. cbn in E. apply bind_ok in E as (s1 & E1 & E2). destruct I as [->|I].
    - apply (within_step img _ _ W) in E1 as (s & s' & E1 & G). exists s, s'. split; [exact E1|]. eapply grows_trans; [exact G|].
      clear -E2. revert s1 E2. induction bl as [|y k IHk]; intros s1 E; [injection E as <-; grow|]. cbn in E.
      apply bind_ok in E as (s2 & E1 & E2). eapply grows_trans; [eapply grows_block; exact E1|]. now apply IHk.
    - now apply (IH I _ E2). }
  cbn [docx_block] in Et. apply (docx_table_rows _ _ _ c) in Et as (rows & B & R & F); [|exact C|exact C2].
  exists rows. split; [|auto]. unfold tables. cbn [snd] in G. rewrite G, B. apply in_flat_map. exists (BTable rows). split; [|now left].
  apply in_or_app. left. apply in_or_app. right. now left.
Qed.

(** ** C35 *)
Inductive admissible : list span_variant -> Prop :=
| admissible_nil : admissible []
| admissible_cons v vs : (raised v -> vs = []) -> (v = SMark -> ~ In SFootnote vs) -> (v = SFootnote -> ~ In SMark vs) ->
    admissible vs -> admissible (v :: vs).
Lemma props_exact vs : admissible vs -> exactly vs (props_of (rev vs)).
Proof.
  induction 1 as [|v vs R M F A IH].
  - unfold exactly. cbn. repeat split; try discriminate; tauto.
  - cbn [rev]. unfold props_of in *. rewrite fold_left_app. cbn [fold_left].
    set (p := fold_left apply_variant (rev vs) no_props) in *. clearbody p.
    destruct IH as (I1 & I2 & I3 & I4 & I5 & I6 & I7).
    destruct v; cbn [apply_variant]; unfold exactly; cbn [r_bold r_italic r_courier r_highlight r_valign In].
    all: try (assert (vs = []) as -> by (apply R; unfold raised; auto); clear; cbn; repeat split; try discriminate; intuition discriminate).
    all: try (specialize (M eq_refl)). all: try (specialize (F eq_refl)).
    all: rewrite ?I1, ?I2, ?I3, ?I4, ?I5, ?I6, ?I7.
    all: repeat split; try discriminate; try tauto; try (intuition discriminate).
Qed.
Lemma go_list l : forall lb vs, (fix go (lb : bool) (vs : list span_variant) (l : list inline) :=
    match l with
    | [] => (lb, vs, [])
    | x :: r =>
        let '(lb1, vs1, r1) := runs_with_variant lb vs x in
        let '(lb2, vs2, r2) := go lb1 vs1 r in
        (lb2, vs2, r1 ++ r2)
    end) lb vs l = runs_with_variant_list lb vs l.
Proof.
  induction l as [|x l IH]; intros lb vs; [reflexivity|]. cbn. destruct (runs_with_variant lb vs x) as [[lb1 vs1] r1]. now rewrite IH.
Qed.
Scheme nested_mut := Induction for nested Sort Prop with nested_list_mut := Induction for nested_list Sort Prop.
Definition good_runs (vs : list span_variant) (i : inline) : Prop := admissible vs -> forall lb lb' vs' rs,
  runs_with_variant lb (rev vs) i = (lb', vs', rs) -> Forall2 run_of (leaves vs i) rs /\ (spanless i -> vs' = rev vs).
Definition good_runs_list (vs : list span_variant) (l : list inline) : Prop := admissible vs -> forall lb lb' vs' rs,
  runs_with_variant_list lb (rev vs) l = (lb', vs', rs) ->
  Forall2 run_of (List.concat (map (leaves vs) l)) rs /\ (fold_right and True (map spanless l) -> vs' = rev vs).
Lemma good_nested_list vs l : nested_list vs l -> good_runs_list vs l.
Proof.
  revert vs l. apply (nested_list_mut (fun vs i _ => good_runs vs i) (fun vs l _ => good_runs_list vs l)).
  - intros vs n k v loc A lb lb' vs' rs [= <- <- <-]. split; [|trivial]. constructor; [|constructor].
    cbn [run_of fst snd]. eexists _, _. split; [reflexivity|]. now apply props_exact.
  - intros vs loc A lb lb' vs' rs [= <- <- <-]. split; [|trivial]. constructor; [reflexivity|constructor].
  - intros vs v f l m loc o R M F N IH A lb lb' vs' rs E. cbn [runs_with_variant] in E. rewrite go_list in E.
    change (rev vs ++ [v]) with (rev (v :: vs)) in E. apply IH in E as [E _]; [|now constructor]. split; [exact E|intros []].
  - intros vs v t l m loc N IH A lb lb' vs' rs E. cbn [runs_with_variant] in E. rewrite go_list in E. now apply IH in E.
  - intros vs A lb lb' vs' rs [= <- <- <-]. split; [constructor|trivial].
  - intros vs i N IH A lb lb' vs' rs E. cbn in E. destruct (runs_with_variant lb (rev vs) i) as [[lb1 vs1] r1] eqn:E1.
    injection E as <- <- <-. apply IH in E1 as [E1 S]; [|exact A]. cbn. rewrite !app_nil_r. split; [exact E1|]. intros []. auto.
  - intros vs i l Sp N IH Nl IHl A lb lb' vs' rs E. cbn in E. destruct (runs_with_variant lb (rev vs) i) as [[lb1 vs1] r1] eqn:E1.
    apply IH in E1 as [E1 S]; [|exact A]. rewrite (S Sp) in E.
    destruct (runs_with_variant_list lb1 (rev vs) l) as [[lb2 vs2] r2] eqn:E2. injection E as <- <- <-.
    apply IHl in E2 as [E2 S2]; [|exact A]. cbn [map List.concat]. split; [now apply Forall2_app|]. intros [_ K]. auto.
Qed.
Lemma runs_exact l : Forall (nested []) l -> forall lb lb' rs, runs_from_inlines lb l = (lb', rs) ->
  Forall2 run_of (List.concat (map (leaves []) l)) rs.
Proof.
  induction 1 as [|i l N _ IH]; intros lb lb' rs E; cbn in E; [injection E as <- <-; constructor|].
  destruct (runs_from_inline lb i) as [lb1 r1] eqn:E1. destruct (runs_from_inlines lb1 l) as [lb2 r2] eqn:E2. injection E as <- <-.
  cbn [map List.concat]. apply Forall2_app; [|eapply IH; exact E2]. clear IH E2 l lb2 r2.
  inversion N; subst; cbn [runs_from_inline] in E1.
  - injection E1 as <- <-. constructor; [|constructor]. cbn [run_of fst snd]. eexists _, _. split; [reflexivity|]. apply (props_exact [] admissible_nil).
  - injection E1 as <- <-. constructor; [reflexivity|constructor].
  - destruct (runs_with_variant_list lb [v] l) as [[lb2 vs2] r2] eqn:E2. injection E1 as <- <-.
    apply (good_nested_list [v] l H2) in E2 as [E2 _]; [exact E2|]. constructor; auto; constructor.
  - destruct (runs_with_variant_list lb [] l) as [[lb2 vs2] r2] eqn:E2. injection E1 as <- <-.
    apply (good_nested_list [] l H) in E2 as [E2 _]; [exact E2|constructor].
Qed.

(** the text of the runs *)
Lemma replaced_ok v : reads LCharref v (value_or_refd_char LCharref v).
Proof.
  assert (forall l m, Forall2 (fun x y => fst x = fst y /\ snd x = code_char (snd y)) l m ->
    (exists c, In (v, c) m /\ match mget v l with Some s => s | None => v end = code_char c)
    \/ ~ In v (map fst m) /\ match mget v l with Some s => s | None => v end = v) as K.
  { induction 1 as [|(a, s) (b, n) l m (E & S) F IH]; [right; split; [tauto|reflexivity]|]. cbn [fst snd map mget] in *. subst b.
    destruct (beqb v a) eqn:B.
    - apply beqb_eq in B as ->. left. exists n. split; [now left|exact S].
    - apply beqb_neq in B. destruct IH as [(c & I & E)|(N & E)]; [left; exists c; split; [now right|exact E]|right].
      split; [|exact E]. intros [->|I]; [now elim B|now apply N]. }
  cbn [reads value_or_refd_char]. apply K. unfold charref_map, replaced. cbn [map].
  repeat (apply Forall2_cons; [split; reflexivity|]). apply Forall2_nil.
Qed.
Lemma reads_ok n v : reads n v (value_or_refd_char n v).
Proof. destruct n; [reflexivity|apply replaced_ok]. Qed.
Lemma reads_utf8 n v t : reads n v t -> utf8 v -> utf8 t.
Proof.
  destruct n; cbn [reads]; [now intros ->|]. intros [(c & I & ->)|(_ & ->)]; [intros _|auto].
  assert (Forall (fun x => utf8 (code_char (snd x))) replaced) as F.
  { unfold replaced. cbn [map fst snd].
    repeat (apply Forall_cons; [vm_compute;
      solve [apply utf8_1; [split; vm_compute; discriminate|constructor]
            |apply utf8_2; [split; vm_compute; discriminate|split; vm_compute; discriminate|constructor]
            |apply utf8_3; [split; vm_compute; discriminate|split; vm_compute; discriminate|split; vm_compute; discriminate|constructor]]|]).
    apply Forall_nil. }
  rewrite Forall_forall in F. exact (F _ I).
Qed.
Lemma inside_shown lb v : utf8 v -> shown lb true v (if lb then trim_start (replace_newline v) else replace_newline v).
Proof.
  intros U. exists (replace_newline v). split; [apply joined_newline|]. destruct lb; [|reflexivity]. now apply unindent_trim, newline_utf8.
Qed.
Lemma outside_shown lb v : utf8 v -> shown lb false v (replace_ws_newline (if lb then trim_start v else v)).
Proof.
  intros U. destruct (unindent_trim v U) as (A & B). exists (if lb then trim_start v else v). split; [destruct lb; [exact A|reflexivity]|].
  apply one_line. now destruct lb.
Qed.
Definition writes (lb lb' : bool) (l : list (option (literal_name * bytes) * bool)) (rs : list run) : Prop :=
  forall rest rr, written lb' rest rr -> written lb (l ++ rest) (rs ++ rr).
Lemma writes_list l : Forall (fun i => forall lb vs lb' vs' rs, runs_with_variant lb vs i = (lb', vs', rs) -> writes lb lb' (stretches true i) rs) l ->
  forall lb vs lb' vs' rs, runs_with_variant_list lb vs l = (lb', vs', rs) -> writes lb lb' (List.concat (map (stretches true) l)) rs.
Proof.
  induction 1 as [|x l Hx F IH]; intros lb vs lb' vs' rs E; cbn [runs_with_variant_list] in E.
  - injection E as <- <- <-. intros rest rr W. exact W.
  - destruct (runs_with_variant lb vs x) as [[lb1 vs1] r1] eqn:E1. destruct (runs_with_variant_list lb1 vs1 l) as [[lb2 vs2] r2] eqn:E2.
    injection E as <- <- <-. intros rest rr W. cbn [map List.concat]. rewrite <- !app_assoc. eapply Hx; [exact E1|]. eapply IH; [exact E2|exact W].
Qed.
Lemma inside_written i : forall lb vs lb' vs' rs, runs_with_variant lb vs i = (lb', vs', rs) -> writes lb lb' (stretches true i) rs.
Proof.
  induction i as [v f l m loc o IH|v t l m loc IH|n k s loc|loc] using inline_ind'; intros lb vs lb' vs' rs E; cbn [runs_with_variant] in E; rewrite ?go_list in E.
  1, 2: cbn [stretches]; eapply writes_list; [exact IH|exact E].
  - injection E as <- <- <-. intros rest rr W. cbn [stretches app written]. split; [|exact W].
    eexists _, _, (value_or_refd_char n s). split; [reflexivity|]. split; [apply reads_ok|]. intros U. apply inside_shown. eapply reads_utf8; [apply reads_ok|exact U].
  - injection E as <- <- <-. intros rest rr W. cbn [stretches app written]. auto.
Qed.
Lemma outside_written i lb lb' rs : runs_from_inline lb i = (lb', rs) -> writes lb lb' (stretches false i) rs.
Proof.
  intros E. destruct i as [v f l m loc o|v t l m loc|n k s loc|loc]; cbn [runs_from_inline] in E.
  1, 2: destruct (runs_with_variant_list lb _ l) as [[lb2 vs2] r2] eqn:E2; injection E as <- <-; cbn [stretches];
    eapply writes_list; [apply Forall_forall; intros; eapply inside_written; eassumption|exact E2].
  - injection E as <- <-. intros rest rr W. cbn [stretches app written]. split; [|exact W].
    eexists _, _, (value_or_refd_char n s). split; [reflexivity|]. split; [apply reads_ok|]. intros U. apply outside_shown. eapply reads_utf8; [apply reads_ok|exact U].
  - injection E as <- <-. intros rest rr W. cbn [stretches app written]. auto.
Qed.
Lemma runs_written l : forall lb lb' rs, runs_from_inlines lb l = (lb', rs) -> written lb (List.concat (map (stretches false) l)) rs.
Proof.
  induction l as [|i l IH]; intros lb lb' rs E; cbn [runs_from_inlines] in E; [injection E as <- <-; exact I|].
  destruct (runs_from_inline lb i) as [lb1 r1] eqn:E1. destruct (runs_from_inlines lb1 l) as [lb2 r2] eqn:E2. injection E as <- <-.
  cbn [map List.concat]. eapply outside_written; [exact E1|]. eapply IH. exact E2.
Qed.

(** ** C57 *)
Lemma stands_replaced v n c : In (v, c) replaced -> stands v n -> n <> 160%N -> n <> 8211%N -> c = n.
Proof.
  intros I S A B. destruct S as [d n D|s n S].
  - apply decimal_val in D as (_ & D).
    assert (forall x, bs "&#" ++ d ++ bs ";" = bs "&#" ++ x ++ bs ";" -> d = x) as K.
    { intros x E. apply app_inv_head in E. now apply app_inj_tail in E. }
    assert (Forall (fun y => bs "&#" ++ d ++ bs ";" = fst y -> n <> 160%N -> snd y = n) replaced) as F; [|rewrite Forall_forall in F; exact (F _ I eq_refl A)].
    assert (forall r, bs "&#" ++ d ++ bs ";" = "&" :: r -> exists t, r = "#" :: t) as H by (intros r E; injection E as <-; eexists; reflexivity).
    unfold replaced. cbn [map fst snd].
    repeat (apply Forall_cons; [cbn [fst snd]; intros E N; try (destruct (H _ E) as (t & X); discriminate X)|]); [..|apply Forall_nil].
    all: match type of E with _ = bs ?s =>
           let x := eval vm_compute in (removelast (skipn 2 (bs s))) in
           pose proof (K x E) as ->; vm_compute in D; try discriminate D; injection D as <-; try reflexivity; now elim N
         end.
  - assert (forallb (fun e => forallb (fun r => negb (beqb (fst e) (fst r)) || (snd e =? 160)%N || (snd e =? 8211)%N || (snd e =? snd r)%N) replaced) entities = true) as F
      by (vm_compute; reflexivity).
    rewrite forallb_forall in F. specialize (F _ S). rewrite forallb_forall in F. specialize (F _ I). cbn [fst snd] in F.
    rewrite !orb_true_iff in F. destruct F as [[[F|F]|F]|F]; [|apply N.eqb_eq in F; congruence..].
    rewrite beqb_refl in F. discriminate F.
Qed.
Lemma charref_char v n k loc : In v (map fst replaced) -> stands v n -> n <> 160%N -> n <> 8211%N ->
  runs_from_inlines false [ILit LCharref k v loc] = (false, [RText (code_char n) no_props]).
Proof.
  intros I S A B. apply in_map_iff in I as ((v', c) & <- & I). cbn [fst] in *. pose proof (stands_replaced _ _ _ I S A B) as ->.
  cbn [runs_from_inlines runs_from_inline]. do 3 f_equal. apply (f_equal (fun x => [x])). f_equal.
  assert (forallb (fun r => beqb (replace_ws_newline (value_or_refd_char LCharref (fst r))) (code_char (snd r)) || (snd r =? 160)%N) replaced = true) as F by (vm_compute; reflexivity).
  rewrite forallb_forall in F. specialize (F _ I). cbn [fst snd] in F. apply orb_true_iff in F as [F|F]; [now apply beqb_eq|apply N.eqb_eq in F; congruence].
Qed.
