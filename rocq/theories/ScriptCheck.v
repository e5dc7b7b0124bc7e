(** * Scripts: checking examples *)
From Verif Require ScanLemmas PanicProofs ScanFail2.
From Verif Require Import Base World Location Token Scanner Meta Inline Block Asg Parser SpecScan SpecLex SpecDoc SpecArticle
  ArticleCheck ScanWhole ScriptWords ScriptText ScriptGraph ScriptBlocks ScriptCells ScriptWhole SpecScript.
Local Open Scope nat_scope.

Definition word_ok (x : word) : bool :=
  match fst x, snd x with
  | TStartTag, _ | TEndTag, _ => false
  | TEof, _ :: _ => false
  | _, _ => true
  end.
Lemma laid_cons files line col ty l : word_ok (ty, l) = true -> exists t line' col', ttype t = ty /\ lexeme t = l
  /\ forall ks, laid files line col ((ty, l) :: ks) = t :: laid files line' col' ks.
Proof.
  intros H. destruct ty; try discriminate H; cbn [laid]; try (do 3 eexists; split; [|split; [|intros ks; reflexivity]]; reflexivity).
  destruct l; [|discriminate H]. do 3 eexists; split; [|split; [|intros ks; reflexivity]]; reflexivity.
Qed.
Lemma laid_inj files ks : forallb word_ok ks = true -> forall ks' line col, forallb word_ok ks' = true ->
  laid files line col ks = laid files line col ks' -> ks = ks'.
Proof.
  induction ks as [|[ty l] ks IH]; intros H ks' line col H' E.
  - destruct ks' as [|[[] ?] ?]; try reflexivity; discriminate.
  - cbn [forallb] in H. apply andb_prop in H as [H1 H2]. destruct (laid_cons files line col ty l H1) as (t & n & c & T1 & L1 & E1).
    destruct ks' as [|[ty' l'] ks']; [rewrite E1 in E; discriminate|]. cbn [forallb] in H'. apply andb_prop in H' as [H1' H2'].
    destruct (laid_cons files line col ty' l' H1') as (t' & n' & c' & T2 & L2 & E2).
    assert ((ty, l) = (ty', l')) as Eh by (rewrite E1, E2 in E; injection E as E _; congruence).
    injection Eh as <- <-. f_equal. rewrite E1 in E. rewrite E1 in E. injection E as E. now apply (IH H2 ks' n c).
Qed.
(** words that are scanned are the words of the source *)
Lemma scanned src ks : utf8 src -> scan_with src [] = Ok (laid [] 1 1 ks) -> forallb word_ok ks = true -> tokenised [] src ks.
Proof.
  intros U S H.
  assert (no_tags (laid [] 1 1 ks)) as T.
  { clear S. revert H. generalize 1 at 1. generalize 1. induction ks as [|[ty l] ks IH]; intros n m H; [apply Forall_nil|]. cbn [forallb] in H. apply andb_prop in H as [H1 H2].
    destruct ty; try discriminate H1; cbn [laid]; (apply Forall_cons; [intros [K|K]; discriminate|apply (IH _ _ H2)]). }
  destruct (proj1 (scan_is_grammar src [] U _) (conj S T)) as (ks' & K & E).
  assert (forallb word_ok ks' = true) as H'.
  { clear -K. induction K as [|before ty l after ks' G N1 N2 _ IH]; [reflexivity|]. cbn [forallb]. rewrite IH, andb_true_r.
    apply not_eof in G. destruct ty; try reflexivity; congruence. }
  now rewrite (laid_inj [] ks H ks' 1 1 H' E).
Qed.
(** *** Side conditions *)
Local Open Scope char_scope.
Local Open Scope nat_scope.
Local Open Scope bool_scope.
Definition nameofb (n : bytes) : bool := negb (beqb n []) && forallb (fun c => is_ascii_alnum c || Ascii.eqb c "_") n.
Definition valueofb (v : bytes) : bool := lacks [DQ; NL; "="] v && starts_ok v.
Definition quotableb (f : field) : bool :=
  match f with
  | Named name value => negb (beqb name (bs "role")) && nameofb name && valueofb value
  | Roles l => negb (match l with [] => true | _ => false end) && forallb (lacks [" "]) l && valueofb (SpecMeta.spaced l)
  | Plain _ => false
  end.
Fixpoint suffixb (p q : bytes) : bool := beqb p q || match q with [] => false | _ :: r => suffixb p r end.
Definition pair_eqb (p q : bytes * bytes) : bool := beqb (fst p) (fst q) && beqb (snd p) (snd q).
Definition apartb (l : list (bytes * bytes)) : bool :=
  forallb (fun p => forallb (fun q => pair_eqb p q || negb (suffixb (SpecMeta.pair_text p) (SpecMeta.pair_text q))) l) l.
Definition decorb (d : decor) : bool :=
  match d with
  | Anchor id => starts_ok id
  | Fields true l => forallb quotableb l && apartb (map field_pair l)
  | Fields false l =>
      negb (match l with [] => true | _ => false end) && forallb field_fits l && starts_ok (decor_text d)
      && match l with Plain (_ :: _ :: c :: _) :: _ => negb (is_cont c) | _ => true end
  end.
Definition decorsb (c : list decor) : bool := forallb decorb c && match decors_meta c blank with Some _ => true | None => false end.
Definition nobody (c : list decor) : bool := match c with [] => true | _ => false end.
Definition leaf_okb (g : page) (c : list decor) (x : leaf) : bool :=
  let keep := g_keep g in
  match x with
  | Text l => text_fits keep (waits keep c) l
  | Points _ l => negb (match l with [] => true | _ => false end) && forallb (text_fits keep false) l
  | Terms [] => false
  | Terms ((t, _, x) :: r) =>
      negb (drops_breaks keep) && negb (waits keep c) && text_fits keep false t && one_line t
      && unbroken (text_inlines keep (g_env g) (dress c) false t) && terms_ok (g_keep (keeping g)) (g_env g) x r
  | Verse l =>
      forallb verse_word l && calm true l && match dress c with Some m => match m_type m with Some AVerse => true | _ => false end | None => false end
  | Fenced v l => fenced_fits v (g_env g) l
  | Commented l => closes TCommentBlock l
  | Setting name value => entryb name value
  | Aside _ | Space => true
  end.
Definition insideb (g : page) (x : list decor * leaf) : bool :=
  decorsb (fst x) && leaf_okb g (fst x) (snd x)
  && match snd x with Points _ _ | Terms _ | Fenced _ _ | Verse _ => true | _ => nobody (fst x) end.
Fixpoint leavesb (g : page) (l : list (list decor * leaf)) : bool :=
  match l with [] => true | x :: r => insideb g x && leavesb (leaf_page (fst x) (snd x) g) r end.
Definition boxb (h : page) (l : list (list decor * leaf)) (last : list element) : bool :=
  leavesb h l && match last with
                 | [] => true
                 | _ => text_fits (g_keep (fold_left (fun h x => leaf_page (fst x) (snd x) h) l h)) false last
                 end.
Definition labelb (keep : manner) (t : option (list element)) : bool :=
  match t with Some l => text_fits keep false l && one_line l | None => true end.
Definition boundb (x : bound) (g : page) : bool :=
  match x with Bound title b l last =>
    labelb (g_keep (continued g)) title && boxb (inside (flag_page (title_macros title) (continued g))) l last
  end.
Fixpoint boundsb (l : list bound) (g : page) : bool :=
  match l with [] => true | x :: r => boundb x g && boundsb r (bound_page x g) end.
Definition itemb (x : bullet * list element * list bound) (g : page) : bool :=
  bullet_fits (fst (fst x)) && text_fits (g_keep g) false (snd (fst x))
  && match snd x with [] => true | _ => negb (styled (snd (fst x))) end && boundsb (snd x) (flag_page (macros (snd (fst x))) g).
Fixpoint itemsb (l : list (bullet * list element * list bound)) (g : page) : bool :=
  match l with [] => true | x :: r => itemb x g && itemsb r (item_page x g) end.
Definition variantb (v w : list_variant) : bool :=
  match v, w with LOrdered, LOrdered | LUnordered, LUnordered => true | _, _ => false end.
Definition piece_okb (g : page) (c : list decor) (p : piece) : bool :=
  let keep := g_keep g in
  decorsb c &&
  match p with
  | Part x => leaf_okb g c x && (negb (bare_leaf x) || nobody c)
  | Threaded first rest =>
      itemsb ((first, []) :: rest) g && match fst first with Callout _ => nobody c | _ => true end
      && forallb (fun x => variantb (bullet_variant (fst (fst x))) (bullet_variant (fst first))) rest
  | Head n t => (1 <=? n) && (n <=? 4) && text_fits keep false t && negb (styled t)
  | Alert _ l => text_fits keep (waits keep c) l
  | Rule _ => nobody c
  | Picture title target alt =>
      labelb keep title && alt_fits alt && target_fits target && match target with [] => true | c :: _ => negb (is_cont c) end
  | Boxed title b l last =>
      labelb keep title && boxb (inside (flag_page (title_macros title) g)) l last
      && match b with
         | Quote => match dress c with Some m => match m_type m with Some AVerse => false | _ => true end | None => true end
         | _ => true
         end
  | Grid title _ rows => labelb keep title && grid_ok keep (worn (title_rest g (dress c) title)) rows
  end.
Fixpoint piecesb (g : page) (l : list (list decor * piece)) : bool :=
  match l with [] => true | x :: r => piece_okb g (fst x) (snd x) && piecesb (piece_page (fst x) (snd x) g) r end.
Definition script_okb (d : script) : bool :=
  match sc_title d with
  | None => true
  | Some (t, l) => text_fits plainly false t && forallb header_word (text_words t) && forallb (fun x => entryb (fst x) (snd x)) l
  end
  && piecesb (first_page d) (sc_pieces d)
  && match sc_last d with
     | None => true
     | Some (c, (l, _)) => let keep := g_keep (pieces_page (sc_pieces d) (first_page d)) in decorsb c && text_fits keep (waits keep c) l
     end
  && clear 0 (g_flow (script_page d)).

Ltac ands := repeat match goal with H : _ && _ = true |- _ => apply andb_prop in H as [? ?] end.
Lemma forallb_Forall' {A} (f : A -> bool) (P : A -> Prop) l : (forall x, f x = true -> P x) -> forallb f l = true -> Forall P l.
Proof. intros H E. rewrite forallb_forall in E. apply Forall_forall. auto. Qed.
Lemma nameofb_ok n : nameofb n = true -> SpecMeta.name_of n.
Proof.
  unfold nameofb. intros H. ands. split.
  - intros ->. discriminate.
  - revert H0. apply forallb_Forall'. intros x H1. apply orb_prop in H1 as [H1|H1]; [now left|right]. now apply Ascii.eqb_eq in H1.
Qed.
Lemma starts_okb s : starts_ok s = true -> match s with c :: _ => is_cont c = false | [] => True end.
Proof. destruct s; [easy|]. cbn. apply negb_true_iff. Qed.
Lemma valueofb_ok v : valueofb v = true -> SpecMeta.value_of v.
Proof.
  unfold valueofb. intros H. ands. split; [|now apply starts_okb]. unfold lacks in H. revert H. apply forallb_Forall'. intros c H1.
  apply negb_true_iff in H1. cbn [existsb] in H1. apply orb_false_elim in H1 as [H1 H2]. apply orb_false_elim in H2 as [H2 H3]. apply orb_false_elim in H3 as [H3 _].
  apply Ascii.eqb_neq in H1, H2, H3. auto.
Qed.
Lemma beqb_neq a b : negb (beqb a b) = true -> a <> b.
Proof. intros H ->. rewrite ScanLemmas.beqb_refl in H. discriminate. Qed.
Lemma suffixb_app p x : suffixb p (x ++ p) = true.
Proof. induction x as [|c x IH]; cbn [app]; [destruct p; cbn; now rewrite ?Ascii.eqb_refl, ?ScanLemmas.beqb_refl|]. cbn [suffixb]. rewrite IH. apply orb_true_r. Qed.
Lemma apartb_ok l : apartb l = true -> SpecMeta.apart l.
Proof.
  intros H p q x Hp Hq E. unfold apartb in H. rewrite forallb_forall in H. specialize (H p Hp). rewrite forallb_forall in H. specialize (H q Hq).
  apply orb_prop in H as [H|H].
  - unfold pair_eqb in H. ands. apply ScanLemmas.beqb_eq in H, H0. destruct p, q. cbn in *. congruence.
  - rewrite E, suffixb_app in H. discriminate.
Qed.
Lemma decorb_ok d : decorb d = true -> decor_fits d.
Proof.
  destruct d as [id|[] l]; cbn [decorb decor_fits]; intros H; [exact H| |]; ands.
  - split; [|now apply apartb_ok]. revert H. apply forallb_Forall'. intros [n v|r|s] H; cbn [quotableb quotable] in *; ands; [| |discriminate].
    + split; [now apply beqb_neq|]. split; [now apply nameofb_ok|now apply valueofb_ok].
    + split; [now destruct r|]. split; [assumption|now apply valueofb_ok].
  - split; [now destruct l|]. split; [assumption|]. split; [assumption|]. destruct l as [|[| |[|? [|? [|c ?]]]] ?]; auto. now apply negb_true_iff.
Qed.
Lemma decorsb_ok c : decorsb c = true -> decors_ok c.
Proof.
  unfold decorsb. intros H. ands. split; [revert H; apply forallb_Forall'; apply decorb_ok|]. destruct (decors_meta c blank); [discriminate|discriminate].
Qed.
Lemma nobody_ok c : nobody c = true -> c = [].
Proof. now destruct c. Qed.
Lemma leaf_okb_ok g c x : leaf_okb g c x = true -> leaf_ok g c x.
Proof.
  destruct x as [|? l|[|[[t ?] y] r]| |l| | | |]; cbn [leaf_okb leaf_ok]; intros H; auto.
  - ands. split; [now destruct l|assumption].
  - discriminate.
  - ands. apply negb_true_iff in H. split; [exact H|]. split; [now apply negb_true_iff|]. auto.
  - ands. split; [assumption|]. split; [assumption|]. destruct (dress c) as [m|]; [|discriminate]. cbn [option_map]. destruct (m_type m) as [[]|]; try discriminate. reflexivity.
  - now apply entryb_spec.
Qed.
Lemma insideb_ok g x : insideb g x = true -> inside_ok g x.
Proof.
  unfold insideb. intros H. ands. split; [now apply decorsb_ok|]. split; [now apply leaf_okb_ok|]. destruct (snd x); auto; now apply nobody_ok.
Qed.
Lemma leavesb_ok l : forall g, leavesb g l = true -> leaves_ok g l.
Proof. induction l as [|x l IH]; intros g; [easy|]. cbn [leavesb leaves_ok]. intros H. ands. split; [now apply insideb_ok|now apply IH]. Qed.
Lemma boxb_ok h l last : boxb h l last = true -> box_ok h l last.
Proof. unfold boxb. intros H. ands. split; [now apply leavesb_ok|now destruct last]. Qed.
Lemma labelb_ok keep t : labelb keep t = true -> label_ok keep t.
Proof. destruct t; cbn; auto. apply andb_prop. Qed.
Lemma boundb_ok x g : boundb x g = true -> bound_ok x g.
Proof. destruct x. cbn [boundb bound_ok]. intros H. ands. split; [now apply labelb_ok|now apply boxb_ok]. Qed.
Lemma boundsb_ok l : forall g, boundsb l g = true -> bounds_ok l g.
Proof. induction l as [|x l IH]; intros g; [easy|]. cbn [boundsb bounds_ok]. intros H. ands. split; [now apply boundb_ok|now apply IH]. Qed.
Lemma itemb_ok x g : itemb x g = true -> item_ok x g.
Proof.
  unfold itemb. intros H. ands. split; [assumption|]. split; [assumption|]. split; [|now apply boundsb_ok].
  destruct (snd x); [congruence|]. intros _. now apply negb_true_iff.
Qed.
Lemma itemsb_ok l : forall g, itemsb l g = true -> items_ok l g.
Proof. induction l as [|x l IH]; intros g; [easy|]. cbn [itemsb items_ok]. intros H. ands. split; [now apply itemb_ok|now apply IH]. Qed.
Lemma variantb_ok v w : variantb v w = true -> v = w.
Proof. now destruct v, w. Qed.
Lemma piece_okb_ok g c p : piece_okb g c p = true -> piece_ok g c p.
Proof.
  unfold piece_okb. intros H. ands. split; [now apply decorsb_ok|]. destruct p; cbv zeta in *; ands.
  - split; [now apply leaf_okb_ok|]. intros E. rewrite E in *. now apply nobody_ok.
  - split; [now apply itemsb_ok|]. split; [destruct (fst first); auto; now apply nobody_ok|].
    match goal with H : forallb _ rest = true |- _ => revert H end. apply forallb_Forall'. intros x. apply variantb_ok.
  - repeat match goal with H : (_ <=? _) = true |- _ => apply Nat.leb_le in H end. split; [lia|]. split; [assumption|now apply negb_true_iff].
  - assumption.
  - now apply nobody_ok.
  - split; [now apply labelb_ok|]. split; [assumption|]. split; [assumption|]. destruct target; [exact I|now apply negb_true_iff].
  - split; [now apply labelb_ok|]. split; [now apply boxb_ok|].
    intros ->. destruct (dress c) as [m|]; [|exact I]. intros E. rewrite E in *. discriminate.
  - split; [now apply labelb_ok|assumption].
Qed.
Lemma piecesb_ok l : forall g, piecesb g l = true -> pieces_ok g l.
Proof. induction l as [|x l IH]; intros g; [easy|]. cbn [piecesb pieces_ok]. intros H. ands. split; [now apply piece_okb_ok|now apply IH]. Qed.
Lemma script_okb_ok d : script_okb d = true -> script_ok d.
Proof.
  unfold script_okb. intros H. ands. split; [|split; [|split; [|assumption]]].
  - destruct (sc_title d) as [[t l]|]; [|exact I]. ands. split; [assumption|]. split; [assumption|].
    match goal with H : forallb _ l = true |- _ => revert H end. apply forallb_Forall'. intros x. apply entryb_spec.
  - now apply piecesb_ok.
  - destruct (sc_last d) as [[c [l e]]|]; [|exact I]. cbv zeta in *. ands. split; [now apply decorsb_ok|assumption].
Qed.

(** *** Sources *)
Definition token_eqb (a b : token) : bool :=
  token_type_beq (ttype a) (ttype b) && beqb (lexeme a) (lexeme b)
  && match literal a, literal b with Some x, Some y => beqb x y | None, None => true | _, _ => false end
  && (tline a =? tline b) && (startcol a =? startcol b) && (endcol a =? endcol b)
  && match tfiles a, tfiles b with [], [] => true | _, _ => false end.
Lemma token_eqb_eq a b : token_eqb a b = true -> a = b.
Proof.
  unfold token_eqb. intros H. ands. destruct a as [t1 l1 li1 n1 s1 e1 f1], b as [t2 l2 li2 n2 s2 e2 f2]. cbn in *.
  repeat match goal with H : beqb _ _ = true |- _ => apply ScanLemmas.beqb_eq in H | H : (_ =? _) = true |- _ => apply Nat.eqb_eq in H end.
  assert (t1 = t2) as -> by now apply PanicProofs.tt_eqb_eq. assert (li1 = li2) as ->.
  { destruct li1, li2; try discriminate; [|reflexivity]. f_equal. now apply ScanLemmas.beqb_eq. }
  destruct f1, f2; try discriminate. congruence.
Qed.
Fixpoint tokens_eqb (a b : list token) : bool :=
  match a, b with [], [] => true | x :: r, y :: r' => token_eqb x y && tokens_eqb r r' | _, _ => false end.
Lemma tokens_eqb_eq a : forall b, tokens_eqb a b = true -> a = b.
Proof.
  induction a as [|x a IH]; intros [|y b] H; try discriminate; [reflexivity|]. cbn [tokens_eqb] in H. ands.
  f_equal; [now apply token_eqb_eq|now apply IH].
Qed.
Definition scannedb (src : bytes) (ks : list word) : bool :=
  forallb (fun c => N_of_ascii c <? 128)%N src && forallb word_ok ks
  && match scan_with src [] with Ok ts => tokens_eqb ts (laid [] 1 1 ks) | _ => false end.
Lemma plain_utf8 src : forallb (fun c => N_of_ascii c <? 128)%N src = true -> utf8 src.
Proof.
  intros H. apply ScanFail2.ascii_utf8. revert H. apply forallb_Forall'. intros c H. unfold ascii7. now apply N.ltb_lt in H.
Qed.
Lemma scannedb_ok src ks : scannedb src ks = true -> utf8 src /\ tokenised [] src ks.
Proof.
  unfold scannedb. intros H. ands. assert (utf8 src) as U by now apply plain_utf8. split; [exact U|].
  destruct (scan_with src []) as [ts| | | |] eqn:E; try discriminate.
  match goal with H : tokens_eqb _ _ = true |- _ => apply tokens_eqb_eq in H; subst ts end. now apply scanned.
Qed.
Definition writtenb (src : bytes) (d : script) : bool :=
  scannedb src (script_words d) && forallb (fun c => scannedb (fst c) (text_words (snd c) ++ [(TEof, [])])) (cells d).
Lemma writtenb_ok src d : writtenb src d = true -> utf8 src /\ written src d.
Proof.
  unfold writtenb. intros H. ands. destruct (scannedb_ok _ _ H) as (U & T). split; [exact U|]. split; [exact T|].
  match goal with H : forallb _ (cells d) = true |- _ => revert H end. apply forallb_Forall'. intros c. apply scannedb_ok.
Qed.
