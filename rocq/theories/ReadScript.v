(** * Lemmas: the JSON output and the word count of scripts *)
From Verif Require Import Fixtures Base World Location Token Scanner Meta Inline Block Asg Parser Json Html Docx Cli SpecScan SpecLex SpecDoc
  SpecCli SpecJson SpecWords TreeInd WordProofs CliProofs ScriptWhole ScriptHtml JsonProofs SpecRead ReadProofs SpecScript SpecScriptHtml SpecScriptJson.
Notation counted := SpecWords.counted.
Local Open Scope nat_scope.

(** ** What is shown and where it stands *)
Lemma seen_unplaced_meta m : unplaced_meta (seen_meta m) = seen_meta (unplaced_meta m).
Proof. reflexivity. Qed.
Lemma seen_unplaced_opt m : option_map unplaced_meta (option_map seen_meta m) = option_map seen_meta (option_map unplaced_meta m).
Proof. now destruct m. Qed.
Lemma map_swap {A} (f g : A -> A) l : Forall (fun x => f (g x) = g (f x)) l -> map f (map g l) = map g (map f l).
Proof. induction 1 as [|x l H _ IH]; [reflexivity|]. cbn [map]. now rewrite H, IH. Qed.
Lemma seen_unplaced_inline i : unplaced_inline (seen_inline i) = seen_inline (unplaced_inline i).
Proof.
  induction i as [v f l m loc o IH|v t l m loc IH|n k v loc|loc] using inline_ind'; cbn [seen_inline unplaced_inline]; try reflexivity;
    apply map_swap in IH; now rewrite IH, seen_unplaced_opt.
Qed.
Lemma seen_unplaced_inlines l : map unplaced_inline (map seen_inline l) = map seen_inline (map unplaced_inline l).
Proof. apply map_swap, Forall_forall. intros i _. apply seen_unplaced_inline. Qed.
Lemma seen_unplaced_block b : unplaced (seen_block b) = seen_block (unplaced b).
Proof.
  induction b as [h m k loc IH] using block_ind'. apply map_swap in IH.
  destruct h; cbn [seen_block unplaced seen_head unplaced_head]; rewrite ?seen_unplaced_inlines, ?seen_unplaced_opt, ?IH; reflexivity.
Qed.
Lemma seen_unplaced_blocks l : map unplaced (map seen_block l) = map seen_block (map unplaced l).
Proof. apply map_swap, Forall_forall. intros i _. apply seen_unplaced_block. Qed.

(** ** Counting *)
Lemma plain_unplaced i : plain (unplaced_inline i) = plain i.
Proof.
  induction i as [v f l m loc o IH|v t l m loc IH|n k v loc|loc] using inline_ind'; cbn [plain unplaced_inline]; try reflexivity;
    induction IH as [|x l H _ IHl]; cbn [map List.concat]; congruence.
Qed.
Lemma plains_unplaced l : plains (map unplaced_inline l) = plains l.
Proof. unfold plains. induction l as [|x l IH]; [reflexivity|]. cbn [map List.concat]. now rewrite plain_unplaced, IH. Qed.
Lemma counted_unplaced b : counted (unplaced b) = counted b.
Proof.
  induction b as [h m k loc IH] using block_ind'. cbn [counted unplaced].
  assert (counted_of_head (unplaced_head h) = counted_of_head h) as -> by (destruct h; cbn; rewrite ?plains_unplaced; reflexivity).
  f_equal. induction IH as [|x l H _ IHl]; cbn [map List.concat]; congruence.
Qed.
Lemma all_unplaced l : map counted (map unplaced l) = map counted l.
Proof. induction l as [|x l IH]; [reflexivity|]. cbn [map]. now rewrite counted_unplaced, IH. Qed.
Lemma count_blocks a l : map unplaced (a_blocks a) = l -> word_count a = words_in (List.concat (List.concat (map counted l))).
Proof.
  intros <-. rewrite all_unplaced. unfold word_count, split_whitespace, words_in. rewrite words_count by apply DocGraph.chars_ne. now rewrite all_counted.
Qed.

(** ** Scripts *)
Lemma script_json w fuel origin resolve src d : utf8 src -> script_ok d ->
  (resolve = true -> Forall (fun t => w_canon w (path_join origin t) <> None) (pictures d)) ->
  (cells d = [] \/ 0 < fuel) -> written src d ->
  exists g, parse w fuel origin resolve src = Ok g /\ word_count g = script_words d
  /\ forall j, json_text (render_json g) j -> exists g', read_document j = Some g' /\ shows_script g' d.
Proof.
  intros U H R C W. destruct (script_graph w fuel origin resolve src d U H R C W) as (g & P & B & T).
  exists g. split; [exact P|]. split; [now apply count_blocks|]. intros j J. exists (seen g). split; [now apply text_back|]. split.
  - cbn [seen a_blocks]. now rewrite seen_unplaced_blocks, B.
  - cbn [seen a_header]. rewrite <- T. unfold ScriptBlocks.heading_of. destruct (a_header g) as [h|]; [|reflexivity]. cbn [option_map hd_title]. now rewrite seen_unplaced_inlines.
Qed.
Lemma input_read w e c src : source_text w e c src -> read_input w e c = Ok src.
Proof.
  intros S. unfold read_input. destruct S as [(E & I)|(E & I)].
  - rewrite E. cbn. now rewrite I.
  - apply ScanLemmas.beqb_neq in E. now rewrite E, I.
Qed.
Lemma script_html_run w fuel e c src d : c_backend c = BHtmlbook -> source_text w e c src -> utf8 src -> script_ok d -> forallb tables_fit (script_blocks d) = true ->
  (c_unresolved c = false -> Forall (fun t => w_canon w (path_join (origin_directory e (c_file c)) t) <> None) (pictures d)) ->
  (cells d = [] \/ 0 < fuel) -> written src d ->
  exists o, destination c o
  /\ let counted := if c_count c then [EvCount (script_words d) (c_file c)] else [] in
     match o with
     | None => run w fuel e c = (counted ++ [EvStdout (CHtml (script_html d))], Ok Datatypes.tt)
     | Some p => e_writable e p = true -> run w fuel e c = (counted ++ [EvWrite p (CHtml (script_html d))], Ok Datatypes.tt)
     end.
Proof.
  intros B S U H V G T N. assert (negb (c_unresolved c) = true -> Forall (fun t => w_canon w (path_join (origin_directory e (c_file c)) t) <> None) (pictures d)) as G'.
  { intros C. apply G. now destruct (c_unresolved c). }
  destruct (script_html_ok w fuel (origin_directory e (c_file c)) (negb (c_unresolved c)) src d U H V G' T N) as (g & P & R).
  destruct (script_json w fuel (origin_directory e (c_file c)) (negb (c_unresolved c)) src d U H G' T N) as (g' & P' & K & _).
  rewrite P in P'. injection P' as <-.
  exists (read_output c). split; [apply destination_ok|]. unfold run. rewrite (input_read _ _ _ _ S).
  cbn [lift]. rewrite P. cbn [lift]. rewrite B, R, K. cbn [lift]. cbv zeta. unfold render_string.
  destruct (read_output c) as [p|]; [|reflexivity]. intros ->. reflexivity.
Qed.
Lemma script_json_run w fuel e c src d : c_backend c = BJson -> source_text w e c src -> utf8 src -> script_ok d ->
  (c_unresolved c = false -> Forall (fun t => w_canon w (path_join (origin_directory e (c_file c)) t) <> None) (pictures d)) ->
  (cells d = [] \/ 0 < fuel) -> written src d ->
  exists o s, destination c o
  /\ (forall j, json_text s j -> exists g, read_document j = Some g /\ shows_script g d)
  /\ (exists j, json_text s j)
  /\ let counted := if c_count c then [EvCount (script_words d) (c_file c)] else [] in
     match o with
     | None => run w fuel e c = (counted ++ [EvStdout (CJsonText s)], Ok Datatypes.tt)
     | Some p => e_writable e p = true -> run w fuel e c = (counted ++ [EvWrite p (CJsonText s)], Ok Datatypes.tt)
     end.
Proof.
  intros B S U H G T N. assert (negb (c_unresolved c) = true -> Forall (fun t => w_canon w (path_join (origin_directory e (c_file c)) t) <> None) (pictures d)) as G'.
  { intros C. apply G. now destruct (c_unresolved c). }
  destruct (script_json w fuel (origin_directory e (c_file c)) (negb (c_unresolved c)) src d U H G' T N) as (g & P & K & J).
  exists (read_output c), (render_json g). split; [apply destination_ok|]. split; [exact J|]. split; [exists (json_of_asg g); apply render_json_text|].
  unfold run. rewrite (input_read _ _ _ _ S).
  cbn [lift]. rewrite P. cbn [lift]. rewrite B, K. cbn [lift]. cbv zeta. unfold render_string.
  destruct (read_output c) as [p|]; [|reflexivity]. intros ->. reflexivity.
Qed.
