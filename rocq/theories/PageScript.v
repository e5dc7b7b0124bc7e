(** * Lemmas: the docx output of the command, and of scripts *)
From Verif Require SpecPage PageProofs.
From Verif Require Import Base World Location Token Scanner Meta Inline Block Asg Parser Json Html Docx Cli SpecScan SpecLex SpecDoc
  SpecCli TreeInd CliProofs ScriptWhole ReadScript SpecScript SpecScriptJson SpecScriptPage.
Local Open Scope nat_scope.

(** ** The command *)
Lemma docx_run w fuel e c src g : c_backend c = BDocx -> source_text w e c src ->
  parse w fuel (origin_directory e (c_file c)) (negb (c_unresolved c)) src = Ok g ->
  exists o, destination c o
  /\ let counted := if c_count c then [EvCount (word_count g) (c_file c)] else [] in
     match o with
     | None => run w fuel e c = (counted, Exit)
     | Some p =>
         (c_unresolved c = true -> run w fuel e c = (counted, Exit))
         /\ (c_unresolved c = false -> e_writable e p = true ->
             match SpecPage.first_trouble (e_img e) (SpecPage.graph_events g) with
             | Ok _ => exists d, SpecPage.presents (SpecPage.graph_events g) d
                       /\ run w fuel e c = (counted ++ [EvCreate p; EvWrite p (CDocxFile d)], Ok Datatypes.tt)
             | _ => run w fuel e c = (counted ++ [EvCreate p], Panic)
             end)
     end.
Proof.
  intros B S P. exists (read_output c). split; [apply destination_ok|]. pose proof (PageProofs.graph_runs (e_img e) g) as G. unfold run.
  rewrite (input_read _ _ _ _ S). cbn [lift]. rewrite P. cbn [lift]. rewrite B. cbv zeta. destruct (read_output c) as [p|].
  - split; [intros ->; now rewrite app_nil_r|]. intros -> ->. cbn [negb].
    destruct (SpecPage.first_trouble _ _); [destruct G as (d & -> & G); exists d; split; [exact G|reflexivity]|now rewrite G..].
  - destruct (c_unresolved c); now rewrite app_nil_r.
Qed.

(** ** Locations do not matter *)
Lemma marks_unplaced i : SpecPage.marks (unplaced_inline i) = SpecPage.marks i.
Proof.
  induction i using inline_ind'; cbn [unplaced_inline SpecPage.marks]; try reflexivity; rewrite map_map; [do 2 f_equal|f_equal]; apply map_ext_Forall; exact H.
Qed.
Lemma bits_unplaced l : SpecPage.bits (map unplaced_inline l) = SpecPage.bits l.
Proof.
  unfold SpecPage.bits. rewrite map_map. f_equal. apply map_ext. intros i. unfold SpecPage.inline_bits. rewrite marks_unplaced. now destruct i.
Qed.
Lemma all_bits_unplaced b : SpecPage.all_bits (unplaced b) = SpecPage.all_bits b.
Proof.
  induction b as [h m k loc IH] using block_ind'. cbn [unplaced SpecPage.all_bits].
  assert (SpecPage.head_bits (unplaced_head h) = SpecPage.head_bits h) as -> by (destruct h; cbn [unplaced_head SpecPage.head_bits]; rewrite ?bits_unplaced; reflexivity).
  f_equal. rewrite map_map. f_equal. apply map_ext_Forall. exact IH.
Qed.
Lemma attribute_unplaced k m : SpecPage.attribute k (option_map unplaced_meta m) = SpecPage.attribute k m.
Proof. now destruct m. Qed.
Lemma lines_unplaced k : map (fun x => SpecPage.Line false (SpecPage.all_bits x)) (map unplaced k) = map (fun x => SpecPage.Line false (SpecPage.all_bits x)) k.
Proof. rewrite map_map. apply map_ext. intros b. now rewrite all_bits_unplaced. Qed.
Lemma events_unplaced b : SpecPage.events (unplaced b) = SpecPage.events b.
Proof.
  induction b as [h m k loc IH] using block_ind'. cbn [unplaced SpecPage.events]. rewrite !attribute_unplaced.
  assert (List.concat (map SpecPage.events (map unplaced k)) = List.concat (map SpecPage.events k)) as -> by (rewrite map_map; f_equal; apply map_ext_Forall; exact IH).
  assert (map SpecPage.all_bits (map unplaced k) = map SpecPage.all_bits k) as -> by (rewrite map_map; apply map_ext, all_bits_unplaced).
  destruct h as [id t lv|v|mk p| |t p|[]|t c|n f dl l|n v dl t|l]; cbn [unplaced_head]; try reflexivity.
  - rewrite <- (bits_unplaced t). now destruct t.
  - rewrite lines_unplaced, bits_unplaced. now destruct k.
  - now rewrite !bits_unplaced.
  - destruct n; cbn [SpecPage.events]; now rewrite bits_unplaced.
  - assert (forall name inner, SpecPage.boxed name v (map unplaced_inline t) inner = SpecPage.boxed name v t inner) as E.
    { intros. unfold SpecPage.boxed. rewrite bits_unplaced. now destruct t. }
    destruct n; rewrite ?E; reflexivity.
Qed.

(** ** Scripts *)
Lemma script_events_ok g d : map unplaced (a_blocks g) = script_blocks d -> ScriptBlocks.heading_of g = script_title d ->
  SpecPage.graph_events g = script_events d.
Proof.
  intros B T. unfold SpecPage.graph_events, script_events. rewrite <- B, <- T, map_map. f_equal.
  - unfold ScriptBlocks.heading_of. destruct (a_header g) as [h|]; [|reflexivity]. cbn [option_map]. unfold SpecPage.title_events.
    rewrite bits_unplaced. now destruct (hd_title h).
  - f_equal. apply map_ext. intros b. now rewrite events_unplaced.
Qed.
Lemma script_docx w fuel origin resolve img src d : utf8 src -> script_ok d ->
  (resolve = true -> Forall (fun t => w_canon w (path_join origin t) <> None) (pictures d)) ->
  (cells d = [] \/ 0 < fuel) -> written src d ->
  exists g, parse w fuel origin resolve src = Ok g
  /\ match SpecPage.first_trouble img (script_events d) with
     | Ok _ => exists x, render_docx img g = Ok x /\ SpecPage.presents (script_events d) x
     | Err e => render_docx img g = Err e
     | Panic => render_docx img g = Panic
     | Hang => render_docx img g = Hang
     | Exit => render_docx img g = Exit
     end.
Proof.
  intros U H R C W. destruct (script_graph w fuel origin resolve src d U H R C W) as (g & P & B & T).
  exists g. split; [exact P|]. rewrite <- (script_events_ok g d B T). apply PageProofs.graph_runs.
Qed.
Lemma script_docx_run w fuel e c src d : c_backend c = BDocx -> c_unresolved c = false -> source_text w e c src -> utf8 src -> script_ok d ->
  Forall (fun t => w_canon w (path_join (origin_directory e (c_file c)) t) <> None) (pictures d) ->
  (cells d = [] \/ 0 < fuel) -> written src d ->
  exists o, destination c o
  /\ let counted := if c_count c then [EvCount (script_words d) (c_file c)] else [] in
     match o with
     | None => run w fuel e c = (counted, Exit)
     | Some p => e_writable e p = true ->
         match SpecPage.first_trouble (e_img e) (script_events d) with
         | Ok _ => exists x, SpecPage.presents (script_events d) x
                   /\ run w fuel e c = (counted ++ [EvCreate p; EvWrite p (CDocxFile x)], Ok Datatypes.tt)
         | _ => run w fuel e c = (counted ++ [EvCreate p], Panic)
         end
     end.
Proof.
  intros B N S U H G T W. assert (negb (c_unresolved c) = true -> Forall (fun t => w_canon w (path_join (origin_directory e (c_file c)) t) <> None) (pictures d)) as G' by auto.
  destruct (script_graph w fuel (origin_directory e (c_file c)) (negb (c_unresolved c)) src d U H G' T W) as (g & P & BL & TI).
  destruct (docx_run w fuel e c src g B S P) as (o & D & R). exists o. split; [exact D|]. rewrite (script_events_ok g d BL TI) in R.
  assert (word_count g = script_words d) as E by now apply count_blocks. rewrite E in R. cbv zeta in *. destruct o as [p|]; [|exact R].
  exact (proj2 R N).
Qed.
