(** * Documents in several files: in one file, and as HTML *)
From Verif Require Import Base World Location Token Scanner Meta Inline Block Asg Json Html Parser SpecScan SpecLex SpecDoc SpecArticle
  SpecArticleHtml ScanLemmas TreeInd HtmlProofs ScriptGraph ScriptBlocks ScriptWhole ScriptHtml CutProofs SpecScript SpecScriptHtml SpecCut.
Local Open Scope char_scope.
Local Open Scope nat_scope.
Local Arguments bs : simpl never.

(** ** In one file *)
Lemma sealed_same g h : g_open g || negb (g_open h) = true -> sealed (g_open g) h = h.
Proof. destruct (g_open g); [reflexivity|]. destruct h as [e k fl [] l]; [discriminate|reflexivity]. Qed.
Lemma pieces_app l r g : pieces_page (l ++ r) g = pieces_page r (pieces_page l g).
Proof. apply fold_left_app. Qed.
Lemma joined_page b : forall g, joins false b g = true -> body_page b g = pieces_page (pieces_of b) g.
Proof.
  induction b as [|c l e|c x r IH|t ak f IHf n r IHr]; intros g J; cbn [body_page pieces_of joins] in *.
  - reflexivity.
  - cbn. unfold land. cbn [flag_page g_flag g_open]. cbn [orb] in J. apply Bool.negb_true_iff in J. now rewrite J.
  - exact (IH _ J).
  - apply andb_prop in J as [J J3]. apply andb_prop in J as [J1 J2]. rewrite (sealed_same _ _ J1) in J3 |- *.
    rewrite (IHr _ J3), (IHf _ J2). symmetry. apply pieces_app.
Qed.
Definition ends_page (b : body) (g : page) : page :=
  match last_lines b with Some (c, (l, _)) => place (page_para g (dress c) (waits (g_keep g) c) l) g | None => g end.
Lemma front_page b : forall g, joins true b g = true -> g_flow (body_page b g) = g_flow (ends_page b (pieces_page (front b) g)).
Proof.
  unfold ends_page.
  induction b as [|c l e|c x r IH|t ak f IHf n r IHr]; intros g J; cbn [body_page front last_lines joins] in *.
  - reflexivity.
  - reflexivity.
  - exact (IH _ J).
  - apply andb_prop in J as [J J3]. apply andb_prop in J as [J1 J2]. rewrite (sealed_same _ _ J1) in J3 |- *.
    rewrite (IHr _ J3), (joined_page _ _ J2), pieces_app. reflexivity.
Qed.
Lemma whole_page d : seamless d = true -> g_flow (script_page (whole d)) = g_flow (cut_page d).
Proof. intros J. symmetry. exact (front_page _ _ J). Qed.
Lemma whole_blocks d : seamless d = true -> script_blocks (whole d) = cut_blocks d.
Proof. intros J. unfold script_blocks, cut_blocks. now rewrite whole_page. Qed.
Lemma whole_title d : script_title (whole d) = cut_title d.
Proof. reflexivity. Qed.

(** the pieces of the files are pieces of the whole *)
Lemma pieces_ok_app l : forall r g, pieces_ok g l -> pieces_ok (pieces_page l g) r -> pieces_ok g (l ++ r).
Proof. induction l as [|[c x] l IH]; intros r g H1 H2; [exact H2|]. destruct H1 as [H1 H3]. split; [exact H1|]. now apply IH. Qed.
Lemma pieces_fit b : forall g, joins false b g = true -> body_ok b g -> pieces_ok g (pieces_of b).
Proof.
  induction b as [|c l e|c x r IH|t ak f IHf n r IHr]; intros g J H; cbn [pieces_of body_ok joins] in *.
  - exact Logic.I.
  - destruct H as [H1 H2]. split; [|exact Logic.I]. split; [exact H1|]. split; [exact H2|discriminate].
  - destruct H as [H1 H2]. split; [exact H1|]. now apply IH.
  - apply andb_prop in J as [J J3]. apply andb_prop in J as [J1 J2]. rewrite (sealed_same _ _ J1) in *. destruct H as (_ & _ & _ & _ & H1 & _ & _ & H2).
    apply pieces_ok_app; [now apply IHf|]. rewrite <- (joined_page _ _ J2). now apply IHr.
Qed.
Lemma front_fits b : forall g, joins true b g = true -> body_ok b g ->
  pieces_ok g (front b) /\ match last_lines b with
                           | None => True
                           | Some (c, (l, _)) => let keep := g_keep (pieces_page (front b) g) in decors_ok c /\ text_fits keep (waits keep c) l = true
                           end.
Proof.
  induction b as [|c l e|c x r IH|t ak f IHf n r IHr]; intros g J H; cbn [front last_lines body_ok joins] in *.
  - split; exact Logic.I.
  - split; [exact Logic.I|exact H].
  - destruct H as [H1 H2]. destruct (IH _ J H2) as [H3 H4]. split; [split; assumption|exact H4].
  - apply andb_prop in J as [J J3]. apply andb_prop in J as [J1 J2]. rewrite (sealed_same _ _ J1) in *. destruct H as (_ & _ & _ & _ & H1 & _ & _ & H2).
    destruct (IHr _ J3 H2) as [H3 H4]. rewrite (joined_page _ _ J2) in H3, H4. rewrite pieces_app. split; [|exact H4].
    apply pieces_ok_app; [now apply pieces_fit|exact H3].
Qed.
Lemma whole_ok d : seamless d = true -> cut_ok d -> script_ok (whole d).
Proof.
  intros J (H1 & H2 & H3). destruct (front_fits _ _ J H2) as [H4 H5]. split; [exact H1|]. split; [exact H4|]. split; [exact H5|]. now rewrite whole_page.
Qed.

(** ** As HTML *)
Lemma drawn_body b : forall g, body_ok b g -> drawn_flow (g_flow g) -> drawn_flow (g_flow (body_page b g)).
Proof.
  induction b as [|c l e|c x r IH|t ak f IHf n r IHr]; intros g H G; cbn [body_page body_ok] in *.
  - exact G.
  - apply drawn_place; [apply drawn_wrapped|exact G].
  - destruct H as [H1 H2]. apply IH; [exact H2|]. eapply drawn_piece; eassumption.
  - destruct H as (_ & _ & _ & _ & H1 & _ & _ & H2). apply IHr; [exact H2|]. rewrite sealed_flow. now apply IHf.
Qed.
Lemma drawn_cut d : cut_ok d -> forallb drawn (cut_blocks d) = true.
Proof.
  intros (_ & H & _). unfold cut_blocks, referred. set (l := outline _). assert (forallb drawn l = true) as L.
  { apply drawn_all, drawn_shelve, drawn_body; [exact H|constructor]. }
  generalize (names l). intros ns. clear H. induction l as [|b l IH]; [reflexivity|]. cbn [map forallb] in *.
  rewrite drawn_refer. apply andb_true_iff in L as (-> & L). now apply IH.
Qed.
Lemma cut_shown w fuel origin resolve src d : utf8 src -> cut_ok d -> forallb tables_fit (cut_blocks d) = true ->
  stored w origin resolve [] (ct_body d) -> depth (ct_body d) <= fuel -> tokenised [] src (cut_words d) ->
  exists g, parse w fuel origin resolve src = Ok g /\ render_htmlbook w g = Ok (page_html (cut_title d) (cut_blocks d)).
Proof.
  intros U K V R T N. destruct (cut_graph w fuel origin resolve src d U K R T N) as (g & P & B & H). exists g. split; [exact P|].
  rewrite page_shown; rewrite B; [|now apply drawn_cut|exact V]. unfold heading_of in H. now rewrite <- H.
Qed.
Lemma cut_same w fuel origin resolve src w' fuel' origin' resolve' src' d : utf8 src -> utf8 src' -> cut_ok d -> seamless d = true ->
  stored w origin resolve [] (ct_body d) -> depth (ct_body d) <= fuel -> tokenised [] src (cut_words d) ->
  (resolve' = true -> Forall (fun t => w_canon w' (path_join origin' t) <> None) (pictures (whole d))) ->
  (cells (whole d) = [] \/ 0 < fuel') -> written src' (whole d) ->
  exists g g', parse w fuel origin resolve src = Ok g /\ parse w' fuel' origin' resolve' src' = Ok g'
    /\ map unplaced (a_blocks g) = map unplaced (a_blocks g') /\ heading_of g = heading_of g'
    /\ (forallb tables_fit (cut_blocks d) = true -> render_htmlbook w g = render_htmlbook w' g').
Proof.
  intros U U' K J R T N P C N'.
  destruct (cut_graph w fuel origin resolve src d U K R T N) as (g & E & B & H).
  destruct (script_graph w' fuel' origin' resolve' src' (whole d) U' (whole_ok d J K) P C N') as (g' & E' & B' & H').
  exists g, g'. rewrite (whole_blocks d J) in B'. split; [exact E|]. split; [exact E'|]. split; [congruence|]. split; [rewrite H, H'; reflexivity|].
  intros V. rewrite !page_shown by (rewrite ?B, ?B'; (exact V || now apply drawn_cut)). unfold heading_of in *. rewrite H, H', B, B'. reflexivity.
Qed.
