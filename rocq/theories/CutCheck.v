(** * Documents in several files: checking examples *)
From Verif Require SpecAttrs.
From Verif Require Import Base World Location Token Scanner Meta Inline Block Asg Parser SpecScan SpecLex SpecSelect SpecDoc SpecArticle
  ScanLemmas ArticleCheck ScriptCheck SpecText SpecScript SpecCut.
Local Open Scope char_scope.
Local Open Scope nat_scope.
Local Arguments bs : simpl never.

(** ** Directives that ask for parts: witnesses of what is chosen *)
Definition asked_meta (asked : list SpecAttrs.item) : metadata := mkMeta (rev (SpecAttrs.givens None (SpecAttrs.order asked))) [] [] true None [].
Lemma asked_meta_ok asked k : mget k (m_attrs (asked_meta asked)) = asked_for asked k.
Proof.
  unfold asked_meta, asked_for, SpecAttrs.last_given. cbn [m_attrs]. generalize (rev (SpecAttrs.givens None (SpecAttrs.order asked))). intros l.
  induction l as [|[k' v] l IH]; [reflexivity|]. cbn [mget find fst]. destruct (beqb k k'); [reflexivity|exact IH].
Qed.
Lemma chosen_lines asked ts v l : asked_for asked (bs "lines") = Some v -> asked_for asked (bs "tag") = None -> asked_for asked (bs "tags") = None ->
  chooses l v -> usable l -> chosen asked ts (filter (fun t => wants l (tline t)) ts).
Proof.
  intros E1 E2 E3 C U. exists (asked_meta asked), (filter (fun t => wants l (tline t)) ts). split; [apply asked_meta_ok|]. split.
  - unfold by_lines. rewrite asked_meta_ok, E1. eauto.
  - exists []. split; [|left; auto]. exists [], []. rewrite !asked_meta_ok, E2, E3. auto.
Qed.
Definition opensb (g : bytes) (t : token) : bool := tt_eqb (ttype t) TStartTag && beqb (lexeme t) (bs "tag::" ++ g ++ bs "[]").
Definition closesb (g : bytes) (t : token) : bool := tt_eqb (ttype t) TEndTag && beqb (lexeme t) (bs "end::" ++ g ++ bs "[]").
Fixpoint insideb (g : bytes) (pre : list token) : bool :=
  match pre with [] => false | s :: b => opensb g s && forallb (fun t => negb (closesb g t)) b || insideb g b end.
Definition withinb (tags : list bytes) (pre : list token) : bool := existsb (fun g => insideb g pre) tags.
Definition marksb (tags : list bytes) (t : token) : bool := existsb (fun g => opensb g t || closesb g t) tags.
Fixpoint tagged_of (tags : list bytes) (pre ts : list token) : list token :=
  match ts with
  | [] => []
  | t :: r => (if marksb tags t then [] else if withinb tags pre then [t] else []) ++ tagged_of tags (pre ++ [t]) r
  end.
Definition name_in (t : token) : bytes := firstn (List.length (lexeme t) - 7) (skipn 5 (lexeme t)).
Definition well_formedb (ts : list token) : bool :=
  forallb (fun t => (negb (tt_eqb (ttype t) TStartTag) || opensb (name_in t) t && starts_ok (name_in t))
                    && (negb (tt_eqb (ttype t) TEndTag) || closesb (name_in t) t && starts_ok (name_in t))) ts.
Fixpoint not_nestedb (tags : list bytes) (pre ts : list token) : bool :=
  match ts with
  | [] => true
  | t :: r => forallb (fun g => (negb (opensb g t) || negb (withinb tags pre)) && (negb (closesb g t) || negb (withinb tags pre) || insideb g pre)) tags
              && not_nestedb tags (pre ++ [t]) r
  end.
Lemma opensb_iff g t : opensb g t = true <-> opens_tag g t.
Proof. unfold opensb, opens_tag. rewrite andb_true_iff, beqb_eq. split; intros [H1 H2]; (split; [|exact H2]); [now destruct (ttype t)|now rewrite H1]. Qed.
Lemma closesb_iff g t : closesb g t = true <-> closes_tag g t.
Proof. unfold closesb, closes_tag. rewrite andb_true_iff, beqb_eq. split; intros [H1 H2]; (split; [|exact H2]); [now destruct (ttype t)|now rewrite H1]. Qed.
Lemma free_of_iff g b : forallb (fun t => negb (closesb g t)) b = true <-> Forall (fun t => ~ closes_tag g t) b.
Proof.
  rewrite forallb_forall, Forall_forall. split; intros H t I; specialize (H t I).
  - intros C. apply closesb_iff in C. now rewrite C in H.
  - apply negb_true_iff. destruct (closesb g t) eqn:E; [|reflexivity]. apply closesb_iff in E. contradiction.
Qed.
Lemma insideb_iff g pre : insideb g pre = true <-> SpecSelect.inside g pre.
Proof.
  induction pre as [|s b IH]; cbn [insideb].
  - split; [discriminate|]. intros (a & s & b & E & _). now destruct a.
  - rewrite orb_true_iff, andb_true_iff, opensb_iff, free_of_iff, IH. split.
    + intros [[H1 H2]|(a & s' & b' & -> & H)]; [exists [], s, b; auto|exists (s :: a), s', b'; auto].
    + intros (a & s' & b' & E & H1 & H2). destruct a as [|x a]; cbn in E; injection E as -> ->; [now left|right]. exists a, s', b'. auto.
Qed.
Lemma withinb_iff tags pre : withinb tags pre = true <-> within tags pre.
Proof. unfold withinb, within. rewrite existsb_exists. split; intros (g & I & H); exists g; (split; [exact I|]); now apply insideb_iff. Qed.
Lemma marksb_iff tags t : marksb tags t = true <-> marks tags t.
Proof. unfold marksb, marks. rewrite existsb_exists. split; intros (g & I & H); exists g; (split; [exact I|]); [apply orb_prop in H|apply orb_true_iff]; destruct H as [H|H]; [left|right|left|right]; (now apply opensb_iff || now apply closesb_iff). Qed.
Lemma tagged_of_ok tags ts : forall pre, tagged tags pre ts (tagged_of tags pre ts).
Proof.
  induction ts as [|t ts IH]; intros pre; [constructor|]. cbn [tagged_of]. destruct (marksb tags t) eqn:M; cbn [app].
  - apply tagged_mark; [now apply marksb_iff|apply IH].
  - assert (~ marks tags t) as M' by (intros H; apply marksb_iff in H; congruence). destruct (withinb tags pre) eqn:Wi; cbn [app].
    + apply tagged_in; [now apply withinb_iff|exact M'|apply IH].
    + apply tagged_out; [intros H; apply withinb_iff in H; congruence|apply IH].
Qed.
Lemma well_formedb_ok ts : well_formedb ts = true -> well_formed ts.
Proof.
  unfold well_formedb, well_formed. apply forallb_Forall'. intros t H. apply andb_prop in H as [H1 H2].
  split; intros E; [rewrite E in H1; cbn [tt_eqb negb orb] in H1; apply andb_prop in H1 as [A B]|rewrite E in H2; cbn [tt_eqb negb orb] in H2; apply andb_prop in H2 as [A B]];
    exists (name_in t); (split; [(now apply opensb_iff) || (now apply closesb_iff)|]); unfold starts_ok in B; unfold starts_char; destruct (name_in t); try exact Logic.I; now destruct (is_cont a).
Qed.
Lemma not_nestedb_ok tags ts : forall pre, not_nestedb tags pre ts = true -> forall mid t post g, ts = mid ++ t :: post -> In g tags ->
  (opens_tag g t -> ~ within tags (pre ++ mid)) /\ (closes_tag g t -> within tags (pre ++ mid) -> SpecSelect.inside g (pre ++ mid)).
Proof.
  induction ts as [|u ts IH]; intros pre H mid t post g E I; [now destruct mid|]. cbn [not_nestedb] in H. apply andb_prop in H as [H1 H2].
  destruct mid as [|x mid]; cbn [app] in E; injection E as -> ->.
  - rewrite app_nil_r. rewrite forallb_forall in H1. specialize (H1 g I). apply andb_prop in H1 as [A B]. split.
    + intros O W. apply opensb_iff in O. apply withinb_iff in W. rewrite O, W in A. discriminate.
    + intros C W. apply closesb_iff in C. apply withinb_iff in W. rewrite C, W in B. now apply insideb_iff.
  - specialize (IH _ H2 mid t post g eq_refl I). rewrite <- app_assoc in IH. exact IH.
Qed.
Lemma chosen_tags asked ts g : asked_for asked (bs "lines") = None -> asked_for asked (bs "tag") = Some g -> asked_for asked (bs "tags") = None ->
  well_formedb ts = true -> not_nestedb [g] [] ts = true -> chosen asked ts (tagged_of [g] [] ts).
Proof.
  intros E1 E2 E3 W N. exists (asked_meta asked), ts. split; [apply asked_meta_ok|]. split.
  - unfold by_lines. now rewrite asked_meta_ok, E1.
  - exists [g]. split; [exists [g], []; rewrite !asked_meta_ok, E2, E3; auto|]. right. split; [discriminate|]. split; [now apply well_formedb_ok|].
    split; [|apply tagged_of_ok]. intros pre t post g' E I. exact (not_nestedb_ok [g] ts [] N pre t post g' E I).
Qed.

Definition askedb (asked : list SpecAttrs.item) : bool :=
  match asked with
  | [] => true
  | _ => forallb (fun i => match i with SpecAttrs.Bare x => lacks [","; DQ; NL] x && starts_ok x | SpecAttrs.Quoted _ _ => false end) asked
         && negb (beqb (SpecAttrs.list_text asked) []) && negb (SpecAttrs.list_refused None (SpecAttrs.order asked))
         && match asked_for asked (bs "leveloffset") with None => true | Some _ => false end
  end.
Lemma askedb_ok asked : askedb asked = true -> asked_ok asked.
Proof.
  destruct asked as [|x asked]; [now left|]. set (l := x :: asked). intros H. change (forallb (fun i => match i with SpecAttrs.Bare x => lacks [","; DQ; NL] x && starts_ok x | SpecAttrs.Quoted _ _ => false end) l
    && negb (beqb (SpecAttrs.list_text l) []) && negb (SpecAttrs.list_refused None (SpecAttrs.order l))
    && match asked_for l (bs "leveloffset") with None => true | Some _ => false end = true) in H. right. clearbody l. apply andb_prop in H as [H H4]. apply andb_prop in H as [H H3]. apply andb_prop in H as [H1 H2].
  assert (Forall SpecAttrs.item_ok l /\ SpecAttrs.pairs l = []) as [A B].
  { clear - H1. induction l as [|i l IH]; [split; constructor|]. cbn [forallb] in H1. apply andb_prop in H1 as [A B]. destruct (IH B) as [C D]. destruct i as [|y]; [discriminate|]. apply andb_prop in A as [A1 A2].
    split; [|exact D]. constructor; [|exact C]. split; [|now apply starts_okb]. clear - A1. apply Forall_forall. intros c I. unfold lacks in A1. rewrite forallb_forall in A1. specialize (A1 c I).
    apply negb_true_iff in A1. repeat split; intros ->; discriminate A1. }
  split; [split; [exact A|rewrite B; intros ? ? ? []]|].
  split; [intros E; rewrite E in H2; discriminate|]. split; [now apply negb_true_iff|]. now destruct (asked_for l _).
Qed.
Definition stopb (b : body) : bool := match b with Stop => true | _ => false end.
Fixpoint bodyb (b : body) (g : page) : bool :=
  match b with
  | Stop => true
  | Lines c l _ => decorsb c && text_fits (g_keep g) (waits (g_keep g) c) l
  | Own c x r => piece_okb g c x && bodyb r (piece_page c x g)
  | File t asked f n r =>
      askedb asked && is_adoc t && target_fits t && starts_ok t && bodyb f g && (negb (g_open g) || g_open (body_page f g))
      && ((n =? 2) || (n <? 2) && stopb r) && bodyb r (sealed (g_open g) (body_page f g))
  end.
Lemma bodyb_ok b : forall g, bodyb b g = true -> body_ok b g.
Proof.
  induction b as [|c l e|c x r IH|t ak f IHf n r IHr]; intros g H; cbn [bodyb body_ok] in *; ands.
  - exact Logic.I.
  - split; [now apply decorsb_ok|assumption].
  - split; [now apply piece_okb_ok|now apply IH].
  - split; [now apply askedb_ok|]. split; [assumption|]. split; [assumption|]. split; [now apply starts_okb|]. split; [now apply IHf|]. split.
    + intros E. match goal with H : negb (g_open g) || _ = true |- _ => rewrite E in H; exact H end.
    + split; [|now apply IHr]. match goal with H : (n =? 2) || _ = true |- _ => apply orb_prop in H as [H|H]; [left; now apply Nat.eqb_eq|right] end.
      ands. split; [now apply Nat.ltb_lt|]. now destruct r.
Qed.
Definition cut_okb (d : cut) : bool :=
  match ct_title d with
  | None => true
  | Some (t, l) => text_fits plainly false t && forallb header_word (text_words t) && forallb (fun x => entryb (fst x) (snd x)) l
  end
  && bodyb (ct_body d) (first_page (beginning d)) && clear 0 (g_flow (cut_page d)).
Lemma cut_okb_ok d : cut_okb d = true -> cut_ok d.
Proof.
  unfold cut_okb. intros H. ands. split; [|split; [now apply bodyb_ok|assumption]].
  destruct (ct_title d) as [[t l]|]; [|exact Logic.I]. ands. split; [assumption|]. split; [assumption|].
  match goal with H : forallb _ l = true |- _ => revert H end. apply forallb_Forall'. intros x. apply entryb_spec.
Qed.
(** only directives that ask for one tag *)
Definition word_dec (a b : word) : {a = b} + {a <> b}.
Proof. decide equality; [apply (list_eq_dec Ascii.ascii_dec)|decide equality]. Defined.
Definition wordsb (a b : list word) : bool := if list_eq_dec word_dec a b then true else false.
Definition taggedb (asked : list SpecAttrs.item) (f : body) (ts : list token) : bool :=
  match asked_for asked (bs "lines"), asked_for asked (bs "tag"), asked_for asked (bs "tags") with
  | None, Some g, None =>
      well_formedb ts && not_nestedb [g] [] ts && gridless f
      && wordsb (map (fun t => (ttype t, lexeme t)) (tagged_of [g] [] ts)) (body_words f)
  | _, _, _ => false
  end.
Lemma taggedb_ok asked f ts : taggedb asked f ts = true -> parted asked f ts.
Proof.
  unfold taggedb. destruct (asked_for asked (bs "lines")) eqn:E1; [discriminate|]. destruct (asked_for asked (bs "tag")) as [g|] eqn:E2; [|discriminate].
  destruct (asked_for asked (bs "tags")) eqn:E3; [discriminate|]. intros H. ands. exists (tagged_of [g] [] ts). split; [now apply chosen_tags|].
  split; [|now left]. left. match goal with H : wordsb _ _ = true |- _ => unfold wordsb in H; destruct (list_eq_dec _ _ _) as [E|]; [exact E|discriminate H] end.
Qed.
Fixpoint storedb (w : world) (origin : bytes) (resolve : bool) (files : list bytes) (b : body) : bool :=
  match b with
  | Stop | Lines _ _ _ => true
  | Own _ x r =>
      match x with
      | Picture _ t _ => negb resolve || match w_canon w (resolve_path origin files t) with Some _ => true | None => false end
      | Grid _ _ rows => forallb (fun c => scannedb (fst c) (text_words (snd c) ++ [(TEof, [])])) (grid_cells rows)
      | _ => true
      end && storedb w origin resolve files r
  | File t asked f _ r =>
      match w_canon w (resolve_path origin files t) with
      | Some path =>
          match w_read w path with
          | Some content =>
              match asked with
              | [] => scannedb content (body_words f ++ [(TEof, [])])
              | _ => match scan_stream content (files ++ [t]) with (ts, Ok _) => taggedb asked f ts | _ => false end
              end
          | None => false
          end
      | None => false
      end && storedb w origin resolve (files ++ [t]) f && storedb w origin resolve files r
  end.
Lemma storedb_ok w origin resolve b : forall files, storedb w origin resolve files b = true -> stored w origin resolve files b.
Proof.
  induction b as [|c l e|c x r IH|t ak f IHf n r IHr]; intros files H; cbn [storedb stored] in *; ands; try exact Logic.I.
  - split; [|now apply IH]. destruct x as [| | | | |title target alt| |title gap rows]; try exact Logic.I.
    + intros ->. cbn [negb orb] in *. destruct (w_canon w _); [discriminate|discriminate].
    + match goal with H : forallb _ (grid_cells rows) = true |- _ => revert H end. apply forallb_Forall'. intros c0. apply scannedb_ok.
  - split; [|split; [now apply IHf|now apply IHr]]. destruct (w_canon w _) as [path|]; [|discriminate]. destruct (w_read w path) as [content|] eqn:E; [|discriminate].
    exists path, content. split; [reflexivity|]. split; [exact E|]. destruct ak as [|i ak]; [now apply scannedb_ok|].
    destruct (scan_stream content (files ++ [t])) as [ts [[]| | | |]]; try discriminate. exists ts. split; [reflexivity|]. now apply taggedb_ok.
Qed.
