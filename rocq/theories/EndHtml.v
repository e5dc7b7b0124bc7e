(** * The blank line after the last block: the HTML of documents without it *)
From Verif Require Import Base World Location Token Scanner Meta Inline Block Asg Html Parser SpecScan SpecLex SpecDoc SpecArticle
  ScriptHtml ScriptWhole ScriptCheck EndProofs SpecScript SpecScriptHtml SpecEnd.

Lemma short_shown w fuel origin resolve src d : utf8 src -> script_ok d -> ends_short d -> forallb tables_fit (script_blocks d) = true ->
  (resolve = true -> Forall (fun t => w_canon w (path_join origin t) <> None) (pictures d)) ->
  (cells d = [] \/ 0 < fuel) -> short_written src d ->
  exists g, parse w fuel origin resolve src = Ok g /\ render_htmlbook w g = Ok (script_html d).
Proof.
  intros U K E V Hp Hf N. destruct (short_graph w fuel origin resolve src d U K E Hp Hf N) as (g & P & B & H). exists g. split; [exact P|].
  rewrite page_shown; rewrite B; [|now apply drawn_blocks|exact V]. unfold script_html. unfold ScriptBlocks.heading_of in H. now rewrite <- H.
Qed.
Lemma short_same w fuel origin resolve src src' d : utf8 src -> utf8 src' -> script_ok d -> ends_short d ->
  (resolve = true -> Forall (fun t => w_canon w (path_join origin t) <> None) (pictures d)) ->
  (cells d = [] \/ 0 < fuel) -> short_written src d -> written src' d ->
  exists g g', parse w fuel origin resolve src = Ok g /\ parse w fuel origin resolve src' = Ok g'
    /\ map unplaced (a_blocks g) = map unplaced (a_blocks g') /\ ScriptBlocks.heading_of g = ScriptBlocks.heading_of g'.
Proof.
  intros U U' K E Hp Hf N N'. destruct (short_graph w fuel origin resolve src d U K E Hp Hf N) as (g & P & B & H).
  destruct (script_graph w fuel origin resolve src' d U' K Hp Hf N') as (g' & P' & B' & H').
  exists g, g'. split; [exact P|]. split; [exact P'|]. split; [now rewrite B, B'|]. exact (eq_trans H (eq_sym H')).
Qed.
Definition short_writtenb (src : bytes) (d : script) : bool :=
  scannedb src (short_words d) && forallb (fun c => scannedb (fst c) (text_words (snd c) ++ [(TEof, [])])) (cells d).
Lemma short_writtenb_ok src d : short_writtenb src d = true -> utf8 src /\ short_written src d.
Proof.
  unfold short_writtenb. intros H. ands. destruct (scannedb_ok _ _ H) as (U & T). split; [exact U|]. split; [exact T|].
  match goal with H : forallb _ (cells d) = true |- _ => revert H end. apply forallb_Forall'. intros c. apply scannedb_ok.
Qed.
