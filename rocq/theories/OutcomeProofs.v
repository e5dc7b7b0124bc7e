(** * What the command does *)
From Verif Require SpecPage PageProofs SpecWords.
From Verif Require Import Base World Location Token Scanner Meta Inline Block Asg Json Html Docx Parser Cli SpecScan SpecCli SpecJson
  ScanLemmas JsonProofs CliProofs SpecRead ReadProofs ReadScript HtmlPage SpecHtmlPage SpecOutcome.
Local Open Scope nat_scope.

Lemma words_graph g : word_count g = graph_words g.
Proof. rewrite (count_blocks g _ eq_refl). now rewrite all_unplaced. Qed.
Lemma run_outcome w fuel e c ev r : run w fuel e c = (ev, r) -> outcome w fuel e c ev r.
Proof.
  intros R. unfold run in R. destruct (read_input w e c) as [src|x| | |] eqn:I; unfold read_input in I.
  2-5: right; destruct (beqb (c_file c) (bs "-")) eqn:E;
    [destruct (e_stdin e) eqn:D; try discriminate I|destruct (w_read w (c_file c)) eqn:D; try discriminate I].
  - left. exists src. assert (source_text w e c src) as S.
    { destruct (beqb (c_file c) (bs "-")) eqn:E.
      - left. apply ScanLemmas.beqb_eq in E. destruct (e_stdin e); [|discriminate]. injection I as ->. now split.
      - right. apply ScanLemmas.beqb_neq in E. destruct (w_read w (c_file c)); [|discriminate]. injection I as ->. now split. }
    split; [exact S|]. cbn [lift] in R.
    destruct (parse w fuel _ _ src) as [g|x| | |]; cbn [lift] in R; try (injection R as <- <-; split; reflexivity).
    cbv zeta in R. unfold answers. rewrite words_graph in R. cbv zeta. set (before := if c_count c then _ else _) in *.
    exists (read_output c). split; [apply destination_ok|]. destruct (c_backend c).
    + rewrite graph_known in R. destruct (forallb (shown w) (a_blocks g)); cbn [lift] in R; [|injection R as <- <-; rewrite app_nil_r; split; reflexivity].
      unfold render_string in R. unfold delivers. destruct (read_output c) as [p|]; [destruct (e_writable e p)|]; injection R as <- <-; rewrite ?app_nil_r; split; reflexivity.
    + exists (render_json g). split; [eexists; apply render_json_text|]. split; [intros j J; now apply text_back|].
      unfold render_string in R. unfold delivers. destruct (read_output c) as [p|]; [destruct (e_writable e p)|]; injection R as <- <-; rewrite ?app_nil_r; split; reflexivity.
    + destruct (read_output c) as [p|]; [|destruct (c_unresolved c); injection R as <- <-; rewrite ?app_nil_r; split; reflexivity].
      destruct (c_unresolved c); [injection R as <- <-; rewrite ?app_nil_r; split; reflexivity|].
      destruct (negb (e_writable e p)); [injection R as <- <-; rewrite ?app_nil_r; split; reflexivity|].
      pose proof (PageProofs.graph_runs (e_img e) g) as G. destruct (SpecPage.first_trouble _ _).
      * destruct G as (d & E & G). rewrite E in R. injection R as <- <-. exists d. split; [exact G|]. split; reflexivity.
      * rewrite G in R. injection R as <- <-. split; reflexivity.
      * rewrite G in R. injection R as <- <-. split; reflexivity.
      * rewrite G in R. injection R as <- <-. split; reflexivity.
      * rewrite G in R. injection R as <- <-. split; reflexivity.
  - injection R as <- <-. apply ScanLemmas.beqb_eq in E. split; [|now split]. intros src [(_ & H)|(H & _)]; congruence.
  - injection R as <- <-. apply ScanLemmas.beqb_neq in E. split; [|now split]. intros src [(H & _)|(_ & H)]; congruence.
Qed.
