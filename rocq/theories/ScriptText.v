(** * Scripts: what the parser makes of the words of a text *)
From Verif Require Import Base World Location Token Meta Inline Block Asg Parser SpecScan SpecLex SpecDoc SpecArticle
  DocGraph MetaProofs ScriptWords SpecScript.
Local Open Scope char_scope.
Local Open Scope nat_scope.
Local Arguments reconcile : simpl never.
Local Arguments token_locations : simpl never.
Local Arguments token_text : simpl never.
Local Arguments last_opt : simpl never.

(** ** Lists *)
Lemma last_opt_snoc {A} (l : list A) x : last_opt (l ++ [x]) = Some x.
Proof. unfold last_opt. now rewrite rev_app_distr. Qed.
Lemma upd_last_snoc {A E} (f : A -> res E A) l x : upd_last f (l ++ [x]) = let* y := f x in Ok (l ++ [y]).
Proof.
  induction l as [|y l IH]; [reflexivity|]. destruct l as [|z l]; [cbn; now destruct (f x)|].
  change (upd_last f ((y :: z :: l) ++ [x])) with (let* r := upd_last f ((z :: l) ++ [x]) in Ok (y :: r)).
  rewrite IH. now destruct (f x).
Qed.
Lemma upd_last'_snoc {A} (f : A -> A) l x : upd_last' f (l ++ [x]) = l ++ [f x].
Proof.
  induction l as [|y l IH]; [reflexivity|]. destruct l as [|z l]; [reflexivity|].
  change (upd_last' f ((y :: z :: l) ++ [x])) with (y :: upd_last' f ((z :: l) ++ [x])). now rewrite IH.
Qed.
Lemma map_snoc {A B} (f : A -> B) l y z : map f l = y ++ [z] -> exists l' x, l = l' ++ [x] /\ map f l' = y /\ f x = z.
Proof.
  intros H. destruct (exists_last (l := l)) as (l' & x & ->); [intros ->; destruct y; discriminate|].
  rewrite map_app in H. apply app_inj_tail in H as [H1 H2]. eauto.
Qed.

(** ** Inlines without locations *)
Lemma is_open_unplaced i : is_open (unplaced_inline i) = is_open i.
Proof. destruct i; reflexivity. Qed.
Lemma is_macro_unplaced i : is_macro (unplaced_inline i) = is_macro i.
Proof. destruct i; reflexivity. Qed.
Lemma split_none_of {A} (f : A -> bool) l : forallb (fun x => negb (f x)) l = true -> split_at_first f l = None.
Proof. induction l as [|x l IH]; [reflexivity|]. cbn. destruct (f x); [discriminate|]. intros H. now rewrite (IH H). Qed.
Lemma forallb_unplaced (f : inline -> bool) l : (forall i, f (unplaced_inline i) = f i) ->
  forallb f (map unplaced_inline l) = forallb f l.
Proof. intros H. induction l as [|x l IH]; [reflexivity|]. cbn. now rewrite H, IH. Qed.

(** the last child is not an open span *)
Definition quiet (rk : list inline) : Prop := match rk with ISpan _ _ _ _ _ true :: _ => False | _ => True end.
Lemma weld_quiet any rk i : is_open i = false -> quiet rk -> quiet (weld any rk i).
Proof.
  intros H Q. destruct rk as [|[| |k ? ? ?|] rk]; cbn; destruct i as [? ? ? ? ? []| |[] ? ? ?|]; try discriminate; try exact I; destruct k; try exact I; destruct any; exact I.
Qed.
Lemma add_kid i x v f rk m o : unplaced_inline i = ISpan v f (rev rk) m [] o -> quiet rk ->
  unplaced_inline (span_add i x) = ISpan v f (rev (weld true rk (unplaced_inline x))) m [] o.
Proof.
  intros E Q. destruct i as [v' f' l m' loc o'| | |]; try discriminate. cbn in E. injection E as -> -> E <- ->.
  destruct rk as [|y rk].
  - apply map_eq_nil in E as ->. cbn. reflexivity.
  - cbn [rev] in E. apply map_snoc in E as (l0 & k & -> & E0 & <-). cbn [span_add]. rewrite last_opt_snoc.
    destruct k as [v1 f1 l1 m1 loc1 [|]|v1 t1 l1 m1 loc1|n1 k1 s1 loc1|loc1]; try (now destruct Q).
    + cbn [unplaced_inline]. rewrite !map_app, E0. destruct x as [| |[]|]; cbn; rewrite <- ?app_assoc; reflexivity.
    + cbn [unplaced_inline]. rewrite !map_app, E0. destruct x as [| |[]|]; cbn; rewrite <- ?app_assoc; reflexivity.
    + destruct x as [v2 f2 l2 m2 loc2 o2|v2 t2 l2 m2 loc2|n2 k2 s2 loc2|loc2];
        try (cbn [unplaced_inline]; rewrite !map_app, E0; destruct n1; cbn; rewrite <- ?app_assoc; reflexivity).
      rewrite upd_last'_snoc. cbn [unplaced_inline weld lit_append]. rewrite map_app, E0.
      destruct n1, n2; reflexivity.
    + cbn [unplaced_inline]. rewrite !map_app, E0. destruct x as [| |[]|]; cbn; rewrite <- ?app_assoc; reflexivity.
Qed.
Lemma add_grandkid i x v f rk m o v2 f2 rk2 m2 :
  unplaced_inline i = ISpan v f (rev (ISpan v2 f2 (rev rk2) m2 [] true :: rk)) m [] o -> quiet rk2 ->
  unplaced_inline (span_add i x) = ISpan v f (rev (ISpan v2 f2 (rev (weld true rk2 (unplaced_inline x))) m2 [] true :: rk)) m [] o.
Proof.
  intros E Q. destruct i as [v' f' l m' loc o'| | |]; try discriminate. cbn [unplaced_inline] in E. injection E as -> -> E <- ->.
  cbn [rev] in E. apply map_snoc in E as (l0 & k & -> & E0 & E). cbn [span_add]. rewrite last_opt_snoc.
  destruct k as [v1 f1 l1 m1 loc1 o1| | |]; try discriminate. pose proof E as E'. cbn in E'. injection E' as -> -> _ _ ->.
  rewrite upd_last'_snoc. cbn [unplaced_inline]. rewrite map_app. cbn [map rev].
  rewrite (add_kid _ x _ _ _ _ _ E Q), E0. reflexivity.
Qed.
(** where text goes while a span is open: [ctx kids] is the span with [kids], the last
    first, at that place *)
Definition cursor (ctx : list inline -> inline) : Prop :=
  (forall rk, exists v f l m o, ctx rk = ISpan v f l m [] o)
  /\ forall i rk x, unplaced_inline i = ctx rk -> quiet rk -> unplaced_inline (span_add i x) = ctx (weld true rk (unplaced_inline x)).
Definition ctx1 v f m (rk : list inline) : inline := ISpan v f (rev rk) m [] true.
Definition ctx2 v f m rk v2 f2 (rk2 : list inline) : inline :=
  ISpan v f (rev (ISpan v2 f2 (rev rk2) None [] true :: rk)) m [] true.
Lemma cursor1 v f m : cursor (ctx1 v f m).
Proof. split; [intros rk; unfold ctx1; eauto 6|]. intros i rk x. apply add_kid. Qed.
Lemma cursor2 v f m rk v2 f2 : cursor (ctx2 v f m rk v2 f2).
Proof. split; [intros rk2; unfold ctx2; eauto 6|]. intros i rk2 x. apply add_grandkid. Qed.

(** ** Words and tokens *)
Definition is_word (w : word) (t : token) : Prop :=
  ttype t = fst w /\ lexeme t = snd w /\ literal t = content (fst w) (snd w).
Notation are_words := (Forall2 is_word).
Lemma word_text w t : is_word w t -> match fst w with
    | TOpenDoubleQuote | TCloseDoubleQuote | TOpenSingleQuote | TCloseSingleQuote | TCharRef => True
    | _ => token_text t = snd w end.
Proof.
  intros (T & L & C). unfold token_text. rewrite T, L, C. destruct (fst w); try exact I; reflexivity.
Qed.
Definition not_newline (w : word) : bool := match fst w with TNewLineChar => false | _ => true end.
Definition after_words (broken : bool) (ws : list word) : bool := fold_left (fun _ w => negb (not_newline w)) ws broken.
Lemma calm_app b x y : calm b (x ++ y) = true -> calm (after_words b x) y = true.
Proof.
  revert b. induction x as [|w x IH]; intros b; [exact (fun H => H)|]. cbn [app calm after_words fold_left].
  unfold not_newline at 2. destruct (fst w); cbn [negb]; try apply IH. intros H%andb_prop. apply IH, H.
Qed.
Definition calm_at (b : bool) (w : word) : bool := not_newline w || negb b.
(** inside: every newline comes after something else *)
Fixpoint calm_in (b : bool) (ws : list word) : bool :=
  match ws with [] => true | w :: r => calm_at b w && calm_in (negb (not_newline w)) r end.
Lemma calm_front b x y : calm b (x ++ y) = true -> calm_in b x = true.
Proof.
  revert b. induction x as [|w x IH]; intros b; [reflexivity|]. cbn [app calm calm_in]. unfold calm_at, not_newline at 1 2.
  destruct (fst w); cbn [negb orb andb]; try apply IH. intros [-> H]%andb_prop. cbn. now apply IH.
Qed.
Lemma calm_in_app b x y : calm_in b (x ++ y) = true -> calm_in b x = true /\ calm_in (after_words b x) y = true.
Proof.
  revert b. induction x as [|w x IH]; intros b; [auto|]. cbn [app calm_in after_words fold_left]. intros [-> H]%andb_prop. cbn.
  now apply IH.
Qed.
Lemma after_words_app b x y : after_words b (x ++ y) = after_words (after_words b x) y.
Proof. apply fold_left_app. Qed.
(** the last token read allows a newline *)
Definition steady (lst : token_type) : Prop :=
  tt_eqb lst TNewLineChar || tt_eqb lst TEof = false /\ clears_newline_after lst = false.
Definition paced (b : bool) (lst : token_type) : Prop := b = false -> steady lst.

(** the line break that waits *)
Definition pending (wait : bool) (dang : option token) : Prop :=
  match dang with None => wait = false | Some t => wait = true /\ is_word newline t end.
Lemma newline_text t : is_word newline t -> token_text t = [NL] /\ lexeme t = [NL].
Proof. intros H. pose proof (word_text _ _ H) as T. destruct H as (_ & L & _). auto. Qed.

Section Text.
  Variables (w : world) (fuel : nat) (here : bytes * list bytes) (resolve : bool).
  Variables (hd : option header) (attrs : list (bytes * bytes)) (bst : list block) (ti : option (list inline))
    (ol : list nat) (keep : manner) (a : asg) (e : env).
  Hypothesis Ha : agrees attrs e.
  Definition tstate lst ist me ot il sp force close dang : pstate :=
    mkP (fst here) lst hd attrs bst ist (snd here) ti me ol ot 0%Z il sp (drops_breaks keep) force (keeps_breaks keep) close dang resolve a.
  Notation C := tstate.

  Definition header_ok (ws : list word) : Prop := hd = None \/ forallb header_word ws = true.
  Definition title_open (ws : list word) : Prop := ti = None \/ forallb not_newline ws = true.
  Definition ready (ws : list word) : Prop := header_ok ws /\ title_open ws.
  Lemma ready_app x y : ready (x ++ y) -> ready x /\ ready y.
  Proof.
    intros [[H|H] [T|T]]; rewrite ?forallb_app in *; repeat match goal with K : _ && _ = true |- _ => apply andb_prop in K as [? ?] end;
      (split; (split; [(left; assumption) || (right; assumption)|(left; assumption) || (right; assumption)])).
  Qed.
  Lemma ready_cons x y : ready (x :: y) -> ready [x] /\ ready y.
  Proof. apply (ready_app [x] y). Qed.
  Lemma header_settled x t : is_word x t -> header_ok [x] -> hd = None \/ can_be_in_document_header t = true.
  Proof.
    intros (T & _) [H|H]; [now left|right]. cbn in H. rewrite andb_true_r in H. unfold can_be_in_document_header, is_inline, header_word in *.
    rewrite T. destruct (fst x); try discriminate; reflexivity.
  Qed.
  Lemma step x t lst ist me il sp force close dang : is_word x t -> header_ok [x] -> fst x <> TInclude -> fst x <> TTableCell ->
    token_into w fuel t (C lst ist me None il sp force close dang) = dispatch w t (C lst ist me None il sp force close dang).
  Proof.
    intros W H N1 N2. pose proof (header_settled x t W H) as S. destruct W as (T & _).
    destruct fuel as [|g]; cbn [token_into];
      (replace (match p_header (C lst ist me None il sp force close dang) with
                | Some _ => if can_be_in_document_header t then Ok (C lst ist me None il sp force close dang)
                            else check_and_move_header w (C lst ist me None il sp force close dang)
                | None => Ok (C lst ist me None il sp force close dang) end)
         with (Ok (C lst ist me None il sp force close dang) : result pstate)
         by (cbn; destruct S as [-> | ->]; [reflexivity|now destruct hd]));
      cbn [bind]; unfold pre_dispatch; cbn [p_open_type]; rewrite T; destruct (fst x); congruence || reflexivity.
  Qed.

  (** *** Text outside spans *)
  Definition ref_closed (close : bool) (st : list inline) : Prop := match st with IRef _ _ _ _ _ :: _ => close = true | _ => True end.
  Lemma add_out pass t lst ist me ot il force close dang :
    ref_closed close (map unplaced_inline ist) ->
    exists ist', add_to_last_inline pass t (C lst ist me ot il false force close dang) = Ok (C lst ist' me ot il false force close dang)
      /\ map unplaced_inline ist' = weld false (map unplaced_inline ist) (said (if pass then lexeme t else token_text t)).
  Proof.
    intros R. unfold add_to_last_inline. cbn [p_istack p_in_span p_close_parent C]. destruct ist as [|i ist].
    - destruct pass; eexists; split; reflexivity.
    - destruct i as [v f l m loc o|v tg l m loc|n k s loc|loc].
      + destruct pass; eexists; split; reflexivity.
      + cbn in R. subst close. destruct pass; eexists; split; reflexivity.
      + destruct n; destruct pass; eexists; split; reflexivity.
      + destruct pass; eexists; split; reflexivity.
  Qed.
  Lemma weld_top any st x : is_literal x = true -> exists n k s l r, weld any st x = ILit n k s l :: r.
  Proof.
    destruct x as [| |xn xk xs xl|]; try discriminate. intros _.
    destruct st as [|[| |[] n s l|] st]; cbn; eauto 6; destruct xn; eauto 6; destruct any; eauto 6.
  Qed.
  Lemma ref_closed_weld close any st x : is_literal x = true -> ref_closed close (weld any st x).
  Proof. intros (n & k & s & l & r & ->)%(weld_top any st). exact I. Qed.
  Lemma flush_out lst ist me ot il force close dang wait lit :
    ref_closed close (map unplaced_inline ist) -> pending wait dang -> is_literal lit = true ->
    exists ist' done, flush_dangling lit (C lst ist me ot il false force close dang) = Ok (C lst ist' me ot il false force close None, done)
      /\ ref_closed close (map unplaced_inline ist')
      /\ (if (done : bool) then map unplaced_inline ist' else weld false (map unplaced_inline ist') (unplaced_inline lit))
        = fst (put keep false (map unplaced_inline ist, wait) (unplaced_inline lit)).
  Proof.
    intros R P L. unfold flush_dangling. cbn [p_dangling p_preserve_nl C]. destruct dang as [d|].
    - destruct P as [-> Nl]. destruct (newline_text d Nl) as [Nt _]. destruct (keeps_breaks keep) eqn:K.
      + eexists _, true. split; [unfold C; cbn; rewrite K; reflexivity|]. unfold put. cbn. rewrite K, Nt. split; [|reflexivity].
        destruct lit; try discriminate; exact I.
      + destruct (add_out false d lst ist me ot il force close (Some d) R) as (i1 & E1 & B1). rewrite Nt in B1.
        unfold add_text_to_last_inline. rewrite E1. exists i1, false. split; [unfold C; cbn; rewrite K; reflexivity|].
        rewrite B1. split; [now apply ref_closed_weld|]. unfold put. cbn. now rewrite K.
    - cbn in P. subst wait. exists ist, false. auto.
  Qed.
  Lemma text_out u lst ist me ot il force close dang wait :
    ref_closed close (map unplaced_inline ist) -> pending wait dang ->
    exists ist', parse_text u (C lst ist me ot il false force close dang) = Ok (C lst ist' me ot il false force close None)
      /\ map unplaced_inline ist' = fst (put keep false (map unplaced_inline ist, wait) (said (token_text u))).
  Proof.
    intros R P. destruct (flush_out lst ist me ot il force close dang wait (lit_text u) R P eq_refl) as (i1 & done & E1 & R1 & B1).
    unfold parse_text. rewrite E1. cbn [bind]. destruct done; [exists i1; auto|].
    destruct (add_out false u lst i1 me ot il force close None R1) as (i2 & E2 & B2). exists i2. split; [exact E2|].
    rewrite B2. exact B1.
  Qed.
  Lemma pass_out u lst ist me ot il force close dang wait :
    ref_closed close (map unplaced_inline ist) -> pending wait dang ->
    exists ist', pass_text_through u (C lst ist me ot il false force close dang) = Ok (C lst ist' me ot il false force close None)
      /\ map unplaced_inline ist' = fst (put keep false (map unplaced_inline ist, wait) (said (lexeme u))).
  Proof.
    intros R P. destruct (flush_out lst ist me ot il force close dang wait (lit_pass u) R P eq_refl) as (i1 & done & E1 & R1 & B1).
    unfold pass_text_through. rewrite E1. cbn [bind]. destruct done; [exists i1; auto|].
    destruct (add_out true u lst i1 me ot il force close None R1) as (i2 & E2 & B2). exists i2. split; [exact E2|].
    rewrite B2. exact B1.
  Qed.
  Lemma charref_out u lst ist me ot il force close dang wait :
    ref_closed close (map unplaced_inline ist) -> pending wait dang ->
    exists ist', parse_charref u (C lst ist me ot il false force close dang) = Ok (C lst ist' me ot il false force close None)
      /\ map unplaced_inline ist' = fst (put keep false (map unplaced_inline ist, wait) (ILit LCharref false (token_text u) [])).
  Proof.
    intros R P. destruct (flush_out lst ist me ot il force close dang wait (lit_charref u) R P eq_refl) as (i1 & done & E1 & R1 & B1).
    unfold parse_charref. rewrite E1. cbn [bind]. destruct done; [exists i1; auto|]. cbn [p_istack C p_in_span p_close_parent].
    cbn [unplaced_inline lit_charref] in B1. rewrite <- B1.
    destruct i1 as [|[v f l m loc o|v tg l m loc|n k s loc|loc] i1].
    - eexists. split; reflexivity.
    - eexists. split; reflexivity.
    - cbn in R1. subst close. eexists. split; reflexivity.
    - eexists. split; [reflexivity|]. destruct n; reflexivity.
    - eexists. split; reflexivity.
  Qed.

  (** *** Text in a span *)
  Lemma add_in pass t lst i ist me ot il force close dang ctx rk : cursor ctx -> unplaced_inline i = ctx rk -> quiet rk ->
    exists i', add_to_last_inline pass t (C lst (i :: ist) me ot il true force close dang) = Ok (C lst (i' :: ist) me ot il true force close dang)
      /\ unplaced_inline i' = ctx (weld true rk (said (if pass then lexeme t else token_text t))).
  Proof.
    intros [S A] E Q. destruct (S rk) as (v & f & l & m & o & E0). rewrite E0 in E. destruct i as [v' f' l' m' loc' o'| | |]; try discriminate.
    rewrite <- E0 in E. unfold add_to_last_inline. cbn [p_istack p_in_span C]. eexists. split; [reflexivity|].
    rewrite (A _ rk _ E Q). destruct pass; reflexivity.
  Qed.
  Lemma flush_in lit lst i ist me ot il force close dang wait ctx rk : cursor ctx -> unplaced_inline i = ctx rk -> quiet rk ->
    pending wait dang -> keeps_breaks keep && wait = false ->
    exists i' rk', flush_dangling lit (C lst (i :: ist) me ot il true force close dang) = Ok (C lst (i' :: ist) me ot il true force close None, false)
      /\ unplaced_inline i' = ctx rk' /\ quiet rk' /\ forall x, weld true rk' x = fst (put keep true (rk, wait) x).
  Proof.
    intros K E Q P W. unfold flush_dangling. cbn [p_dangling p_preserve_nl C]. destruct dang as [d|].
    - destruct P as [-> Nl]. rewrite andb_true_r in W. rewrite W. destruct (newline_text d Nl) as [Nt _].
      destruct (add_in false d lst i ist me ot il force close (Some d) ctx rk K E Q) as (i1 & E1 & B1). rewrite Nt in B1.
      unfold add_text_to_last_inline. rewrite E1. exists i1. eexists. split; [unfold C; cbn; rewrite W; reflexivity|].
      split; [exact B1|]. split; [now apply weld_quiet|]. intros x. unfold put. cbn. now rewrite ?W.
    - cbn in P. subst wait. exists i, rk. auto.
  Qed.
  Lemma text_in u lst i ist me ot il force close dang wait ctx rk : cursor ctx -> unplaced_inline i = ctx rk -> quiet rk ->
    pending wait dang -> keeps_breaks keep && wait = false ->
    exists i', parse_text u (C lst (i :: ist) me ot il true force close dang) = Ok (C lst (i' :: ist) me ot il true force close None)
      /\ unplaced_inline i' = ctx (fst (put keep true (rk, wait) (said (token_text u)))).
  Proof.
    intros K E Q P W. destruct (flush_in (lit_text u) lst i ist me ot il force close dang wait ctx rk K E Q P W) as (i1 & r1 & E1 & B1 & Q1 & F1).
    unfold parse_text. rewrite E1. cbn [bind].
    destruct (add_in false u lst i1 ist me ot il force close None ctx r1 K B1 Q1) as (i2 & E2 & B2).
    exists i2. split; [exact E2|]. now rewrite B2, F1.
  Qed.
  Lemma charref_in u lst i ist me ot il force close dang wait ctx rk : cursor ctx -> unplaced_inline i = ctx rk -> quiet rk ->
    pending wait dang -> keeps_breaks keep && wait = false ->
    exists i', parse_charref u (C lst (i :: ist) me ot il true force close dang) = Ok (C lst (i' :: ist) me ot il true force close None)
      /\ unplaced_inline i' = ctx (fst (put keep true (rk, wait) (ILit LCharref false (token_text u) []))).
  Proof.
    intros K E Q P W. destruct (flush_in (lit_charref u) lst i ist me ot il force close dang wait ctx rk K E Q P W) as (i1 & r1 & E1 & B1 & Q1 & F1).
    unfold parse_charref. rewrite E1. cbn [bind]. cbn [p_istack C p_in_span].
    destruct K as [S A]. destruct (S r1) as (v & f & l & m & o & E0). rewrite E0 in B1. destruct i1 as [v' f' l' m' loc' o'| | |]; try discriminate.
    rewrite <- E0 in B1. eexists. split; [reflexivity|]. rewrite (A _ r1 _ B1 Q1). now rewrite F1.
  Qed.

  (** *** The tokens of bits *)
  Lemma quote_dispatch q t p : is_word (quote_word q) t -> dispatch w t p = parse_text t p /\ token_text t = quote_text q.
  Proof. intros (T & L & _). unfold dispatch, token_text. rewrite T. destruct q; split; reflexivity. Qed.
  Lemma said_dispatch s t p : is_word (TText, s) t -> dispatch w t p = parse_text t p /\ token_text t = s.
  Proof. intros H. pose proof (word_text _ _ H) as X. destruct H as (T & _). unfold dispatch. rewrite T. auto. Qed.
  Lemma sign_dispatch s t p : is_word (TCharRef, s) t -> dispatch w t p = parse_charref t p /\ token_text t = sign_text s.
  Proof. intros (T & L & X). unfold dispatch, token_text. rewrite T, X. split; [reflexivity|]. reflexivity. Qed.
  Lemma name_front name : name_chars name = true -> match name with c :: _ => is_cont c = false | [] => True end.
  Proof.
    destruct name as [|c r]; [trivial|]. cbn. intros [H _]%andb_prop.
    destruct c as [[] [] [] [] [] [] [] []]; cbn in H |- *; congruence.
  Qed.
  Lemma valued_dispatch name t p : is_word (TAttributeReference, "{" :: name ++ ["}"]) t -> name_chars name = true -> p_attrs p = attrs ->
    exists u, dispatch w t p = parse_text u p /\ token_text u = value_of e name.
  Proof.
    intros H N A. pose proof (word_text _ _ H) as X. cbn [fst snd] in X. destruct H as (T & L & Y).
    unfold dispatch. rewrite T. cbn [fst]. unfold parse_attribute_reference. rewrite X, A.
    rewrite (inner_mid "{" name "}" eq_refl (name_front name N)). cbn [bind]. rewrite Ha. unfold value_of.
    destruct (e name) as [v|]; eexists; (split; [reflexivity|]).
    - unfold token_text. rewrite T. reflexivity.
    - exact X.
  Qed.
  (** the line break that waits *)
  Definition hung (t : token) : option token := if drops_breaks keep then None else Some t.
  Lemma hung_pending t : is_word newline t -> pending (negb (drops_breaks keep)) (hung t).
  Proof. intros W. unfold hung. destruct (drops_breaks keep); [reflexivity|]. split; [reflexivity|exact W]. Qed.
  Lemma newline_dispatch t lst ist me il sp force close dang : is_word newline t -> ti = None -> steady lst ->
    dispatch w t (C lst ist me None il sp force close dang) = Ok (C lst ist me None false sp force close (hung t)).
  Proof.
    intros (T & _) Ti [S1 S2]. unfold dispatch. rewrite T. cbn [fst newline]. unfold parse_new_line_char, C. rewrite Ti.
    cbn -[tt_eqb clears_newline_after]. rewrite S1. cbn -[tt_eqb clears_newline_after]. rewrite S2, orb_false_r. unfold hung. now destruct (drops_breaks keep).
  Qed.
  Lemma bracket_dispatch t lst ist me il sp force close dang : is_word macro_close t ->
    forallb (fun x => negb (is_macro x)) (map unplaced_inline ist) = true ->
    dispatch w t (C lst ist me None il sp force close dang) = add_text_to_last_inline t (C lst ist me None il sp force close dang)
    /\ token_text t = bs "]".
  Proof.
    intros H N. pose proof (word_text _ _ H) as X. destruct H as (T & _). unfold dispatch. rewrite T. cbn [fst macro_close].
    unfold parse_inline_macro_close. cbn [p_open_type C p_istack]. split; [|exact X].
    rewrite forallb_unplaced in N by (intros; now rewrite is_macro_unplaced). now rewrite split_none_of.
  Qed.
  Definition no_macro (st : list inline) : Prop := forallb (fun x => negb (is_macro x)) st = true.
  Lemma bit_plain b : fst (bit_word b) <> TInclude /\ fst (bit_word b) <> TTableCell.
  Proof. destruct b as [|[]| | | |]; split; discriminate. Qed.
  Lemma ready_title x : ready [x] -> not_newline x = false -> ti = None.
  Proof. intros [_ [H|H]] N; [exact H|]. cbn in H. rewrite N in H. discriminate. Qed.
  Definition valued_ok (b : bit) : Prop := match b with Valued n => name_chars n = true | _ => True end.

  Lemma bit_out b t lst ist me il force close dang wait :
    is_word (bit_word b) t -> ready [bit_word b] -> (b = Newline -> steady lst) -> valued_ok b ->
    (b = Bracket -> no_macro (map unplaced_inline ist)) -> ref_closed close (map unplaced_inline ist) -> pending wait dang ->
    exists ist' il' dang',
      token_into w fuel t (C lst ist me None il false force close dang) = Ok (C lst ist' me None il' false force close dang')
      /\ let d := write_bit keep false e (map unplaced_inline ist, wait) b in
         map unplaced_inline ist' = fst d /\ pending (snd d) dang'.
  Proof.
    intros W Rd St V N R P. destruct (bit_plain b) as [P1 P2]. rewrite (step _ t _ _ _ _ _ _ _ _ W (proj1 Rd) P1 P2).
    destruct b as [s|q|name|s| |]; cbn [bit_word] in *.
    - destruct (said_dispatch s t (C lst ist me None il false force close dang) W) as [-> X].
      destruct (text_out t lst ist me None il force close dang wait R P) as (i1 & E1 & B1). rewrite X in B1. exists i1, il, None. split; [exact E1|]. split; [exact B1|reflexivity].
    - destruct (quote_dispatch q t (C lst ist me None il false force close dang) W) as [-> X].
      destruct (text_out t lst ist me None il force close dang wait R P) as (i1 & E1 & B1). rewrite X in B1. exists i1, il, None. split; [exact E1|]. split; [exact B1|reflexivity].
    - destruct (valued_dispatch name t (C lst ist me None il false force close dang) W V eq_refl) as (u & -> & X).
      destruct (text_out u lst ist me None il force close dang wait R P) as (i1 & E1 & B1). rewrite X in B1. exists i1, il, None. split; [exact E1|]. split; [exact B1|reflexivity].
    - destruct (sign_dispatch s t (C lst ist me None il false force close dang) W) as [-> X].
      destruct (charref_out t lst ist me None il force close dang wait R P) as (i1 & E1 & B1). rewrite X in B1. exists i1, il, None. split; [exact E1|]. split; [exact B1|reflexivity].
    - destruct (bracket_dispatch t lst ist me il false force close dang W (N eq_refl)) as [-> X].
      destruct (add_out false t lst ist me None il force close dang R) as (i1 & E1 & B1). rewrite X in B1. exists i1, il, dang. split; [exact E1|]. split; [exact B1|exact P].
    - rewrite (newline_dispatch t lst ist me il false force close dang W (ready_title _ Rd eq_refl) (St eq_refl)).
      exists ist, false, (hung t). split; [reflexivity|]. split; [reflexivity|]. now apply hung_pending.
  Qed.
  Lemma put_ref_closed any b st wait close : ref_closed close st ->
    ref_closed close (fst (write_bit keep any e (st, wait) b)).
  Proof.
    intros R. assert (forall x, is_literal x = true -> ref_closed close (fst (put keep any (st, wait) x))) as H.
    { intros x L. unfold put. cbn. destruct wait; [destruct (keeps_breaks keep)|]; try (now apply ref_closed_weld). destruct x; try discriminate; exact I. }
    destruct b; cbn [write_bit]; try (apply H; reflexivity); [|exact R]. cbn. now apply ref_closed_weld.
  Qed.

  Lemma bit_in b t lst i ist me il force close dang wait ctx rk free :
    is_word (bit_word b) t -> ready [bit_word b] -> (b = Newline -> steady lst) -> bit_fits keep free b = true ->
    (free = true -> no_macro (unplaced_inline i :: map unplaced_inline ist)) ->
    cursor ctx -> unplaced_inline i = ctx rk -> quiet rk -> pending wait dang -> keeps_breaks keep && wait = false ->
    exists i' il' dang',
      token_into w fuel t (C lst (i :: ist) me None il true force close dang) = Ok (C lst (i' :: ist) me None il' true force close dang')
      /\ let d := write_bit keep true e (rk, wait) b in
         unplaced_inline i' = ctx (fst d) /\ quiet (fst d) /\ pending (snd d) dang' /\ keeps_breaks keep && snd d = false.
  Proof.
    intros W Rd St F N K E Q P Kw. destruct (bit_plain b) as [P1 P2]. rewrite (step _ t _ _ _ _ _ _ _ _ W (proj1 Rd) P1 P2).
    assert (forall x, is_open x = false -> quiet (fst (put keep true (rk, wait) x))) as Qp.
    { intros x O. unfold put. cbn. destruct wait; [destruct (keeps_breaks keep); [discriminate|]|]; repeat apply weld_quiet; auto. }
    destruct b as [s|q|name|s| |]; cbn [bit_word] in *.
    - destruct (said_dispatch s t (C lst (i :: ist) me None il true force close dang) W) as [-> X].
      destruct (text_in t lst i ist me None il force close dang wait ctx rk K E Q P Kw) as (i1 & E1 & B1). rewrite X in B1.
      exists i1, il, None. split; [exact E1|]. split; [exact B1|]. split; [apply Qp; reflexivity|]. split; [reflexivity|apply andb_false_r].
    - destruct (quote_dispatch q t (C lst (i :: ist) me None il true force close dang) W) as [-> X].
      destruct (text_in t lst i ist me None il force close dang wait ctx rk K E Q P Kw) as (i1 & E1 & B1). rewrite X in B1.
      exists i1, il, None. split; [exact E1|]. split; [exact B1|]. split; [apply Qp; reflexivity|]. split; [reflexivity|apply andb_false_r].
    - destruct (valued_dispatch name t (C lst (i :: ist) me None il true force close dang) W F eq_refl) as (u & -> & X).
      destruct (text_in u lst i ist me None il force close dang wait ctx rk K E Q P Kw) as (i1 & E1 & B1). rewrite X in B1.
      exists i1, il, None. split; [exact E1|]. split; [exact B1|]. split; [apply Qp; reflexivity|]. split; [reflexivity|apply andb_false_r].
    - destruct (sign_dispatch s t (C lst (i :: ist) me None il true force close dang) W) as [-> X].
      destruct (charref_in t lst i ist me None il force close dang wait ctx rk K E Q P Kw) as (i1 & E1 & B1). rewrite X in B1.
      exists i1, il, None. split; [exact E1|]. split; [exact B1|]. split; [apply Qp; reflexivity|]. split; [reflexivity|apply andb_false_r].
    - destruct (bracket_dispatch t lst (i :: ist) me il true force close dang W (N F)) as [-> X].
      destruct (add_in false t lst i ist me None il force close dang ctx rk K E Q) as (i1 & E1 & B1). rewrite X in B1.
      exists i1, il, dang. split; [exact E1|]. cbn. repeat split; auto. now apply weld_quiet.
    - rewrite (newline_dispatch t lst (i :: ist) me il true force close dang W (ready_title _ Rd eq_refl) (St eq_refl)).
      exists i, false, (hung t). cbn in F. apply negb_true_iff in F. split; [reflexivity|]. cbn. rewrite F. pose proof (hung_pending t W). auto 8.
  Qed.

  (** *** Runs of bits *)
  Lemma loop_cons t ts p q : token_into w fuel t p = Ok q -> parse_loop w fuel (t :: ts) p = parse_loop w fuel ts (set_last (ttype t) q).
  Proof. intros H. cbn [parse_loop]. now rewrite H. Qed.
  Lemma bit_paced b : paced (negb (not_newline (bit_word b))) (fst (bit_word b)).
  Proof. destruct b as [|[]| | | |]; intros H; try discriminate; split; reflexivity. Qed.
  Lemma calm_newline b c lst : calm_at c (bit_word b) = true -> paced c lst -> b = Newline -> steady lst.
  Proof. intros H P ->. apply P. cbn in H. now destruct c. Qed.
  Lemma bits_in l ts ctx free : are_words (map bit_word l) ts -> cursor ctx -> (free = true -> forall rk, is_macro (ctx rk) = false) ->
    forall b lst i ist me il force close dang wait rk,
    ready (map bit_word l) -> calm_in b (map bit_word l) = true -> paced b lst -> forallb (bit_fits keep free) l = true ->
    (free = true -> no_macro (map unplaced_inline ist)) ->
    unplaced_inline i = ctx rk -> quiet rk -> pending wait dang -> keeps_breaks keep && wait = false ->
    exists lst' i' il' dang',
      parse_loop w fuel ts (C lst (i :: ist) me None il true force close dang) = Ok (C lst' (i' :: ist) me None il' true force close dang')
      /\ paced (after_words b (map bit_word l)) lst'
      /\ let d := fold_left (write_bit keep true e) l (rk, wait) in
         unplaced_inline i' = ctx (fst d) /\ quiet (fst d) /\ pending (snd d) dang' /\ keeps_breaks keep && snd d = false.
  Proof.
    intros W K M. remember (map bit_word l) as ws eqn:Ew. revert l Ew. induction W as [|x t ws ts Wx W IH]; intros l Ew; destruct l as [|c l]; try discriminate.
    - intros b lst i ist me il force close dang wait rk _ _ Pc _ _ E Q P Kw. exists lst, i, il, dang. cbn. auto 8.
    - cbn [map] in Ew. injection Ew as -> ->.
      intros b lst i ist me il force close dang wait rk Rd Cm Pc F N E Q P Kw.
      apply ready_cons in Rd as [R1 R2]. cbn [calm_in forallb] in Cm, F. apply andb_prop in Cm as [C1 C2]. apply andb_prop in F as [F1 F2].
      destruct (bit_in c t lst i ist me il force close dang wait ctx rk free Wx R1 (calm_newline c b lst C1 Pc) F1) as (i1 & il1 & d1 & E1 & B1 & Q1 & P1 & K1); auto.
      { intros Fr. unfold no_macro. cbn. rewrite E, (M Fr). exact (N Fr). }
      rewrite (loop_cons _ _ _ _ E1). destruct Wx as (T & _). rewrite T.
      cbn [fold_left]. destruct (write_bit keep true e (rk, wait) c) as [rk1 w1].
      destruct (IH l eq_refl (negb (not_newline (bit_word c))) (fst (bit_word c)) i1 ist me il1 force close d1 w1 rk1 R2 C2 (bit_paced c) F2 N B1 Q1 P1 K1)
        as (l2 & i2 & il2 & d2 & E2 & Pc2 & R).
      exists l2, i2, il2, d2. split; [exact E2|]. auto.
  Qed.

  (** *** Marks *)
  Lemma tick_plain t : fst (tick_word t) <> TInclude /\ fst (tick_word t) <> TTableCell.
  Proof. destruct t as [[]|[]| |]; split; discriminate. Qed.
  Lemma tick_steady t : steady (fst (tick_word t)) /\ not_newline (tick_word t) = true.
  Proof. destruct t as [[]|[]| |]; repeat split. Qed.
  Lemma tick_dispatch k t p : is_word (tick_word k) t ->
    dispatch w t p = parse_inline_span (new_span (tick_variant k) (tick_form k) (token_locations t)) p.
  Proof. intros (T & _). unfold dispatch, span_from_token. rewrite T. destruct k as [[]|[]| |]; reflexivity. Qed.
  Lemma span_eqb v f loc v' f' l m loc' o : inline_eqb (new_span v f loc) (ISpan v' f' l m loc' o) = same_span (v, f) (v', f').
  Proof. reflexivity. Qed.
  Lemma same_span_refl x : same_span x x = true.
  Proof. destruct x as [[] []]; reflexivity. Qed.
  (** the mark of the child before *)
  Definition last_is (last : option tick) (rk : list inline) : Prop :=
    match rk with ISpan v f _ _ _ _ :: _ => exists t, last = Some t /\ tick_span t = (v, f) | _ => True end.
  Lemma open_nested k t lst i ist me il force close dang v f m rk last :
    is_word (tick_word k) t -> header_ok [tick_word k] -> unplaced_inline i = ctx1 v f m rk -> quiet rk ->
    same_span (tick_span k) (v, f) = false -> match last with Some t' => same_span (tick_span k) (tick_span t') = false | None => True end ->
    last_is last rk ->
    exists i', token_into w fuel t (C lst (i :: ist) me None il true force close dang) = Ok (C lst (i' :: ist) me None il true force close dang)
      /\ unplaced_inline i' = ctx2 v f m rk (tick_variant k) (tick_form k) [].
  Proof.
    intros W H E Q N1 N2 Ls. destruct (tick_plain k) as [P1 P2]. rewrite (step _ t _ _ _ _ _ _ _ _ W H P1 P2), (tick_dispatch k t _ W).
    unfold parse_inline_span. cbn [p_istack C].
    destruct i as [v' f' l m' loc o| | |]; try discriminate. pose proof E as E'. unfold ctx1 in E'. cbn in E'. injection E' as -> -> E' _ ->.
    rewrite span_eqb. unfold tick_span in N1. rewrite N1.
    assert (exists i', unplaced_inline i' = ctx2 v f m rk (tick_variant k) (tick_form k) [] /\
      i' = span_add (ISpan v f l m' loc true) (new_span (tick_variant k) (tick_form k) (token_locations t))) as (i' & B & ->).
    { eexists. split; [|reflexivity]. rewrite (add_kid _ _ _ _ _ _ _ E Q). unfold ctx2. cbn [unplaced_inline new_span map option_map].
      destruct rk as [|[| |[]|] rk]; reflexivity. }
    destruct rk as [|y rk].
    - apply map_eq_nil in E' as ->. cbn [last_opt rev]. eexists. split; [reflexivity|exact B].
    - cbn [rev] in E'. apply map_snoc in E' as (l0 & x & -> & _ & Ex). rewrite last_opt_snoc.
      replace (inline_eqb (new_span (tick_variant k) (tick_form k) (token_locations t)) x) with false.
      + eexists. split; [reflexivity|exact B].
      + destruct x as [v1 f1 l1 m1 loc1 o1| | |]; try reflexivity. rewrite span_eqb. subst y. cbn in Ls.
        destruct Ls as (t' & -> & Et). unfold tick_span in N2, Et. rewrite Et in N2. now rewrite N2.
  Qed.
  Lemma close_nested k t lst i ist me il force close dang v f m rk rk2 :
    is_word (tick_word k) t -> header_ok [tick_word k] -> unplaced_inline i = ctx2 v f m rk (tick_variant k) (tick_form k) rk2 ->
    same_span (tick_span k) (v, f) = false ->
    exists i', token_into w fuel t (C lst (i :: ist) me None il true force close dang) = Ok (C lst (i' :: ist) me None il true force close dang)
      /\ unplaced_inline i' = ctx1 v f m (ISpan (tick_variant k) (tick_form k) (rev rk2) None [] false :: rk).
  Proof.
    intros W H E N1. destruct (tick_plain k) as [P1 P2]. rewrite (step _ t _ _ _ _ _ _ _ _ W H P1 P2), (tick_dispatch k t _ W).
    unfold parse_inline_span. cbn [p_istack C]. destruct i as [v' f' l m' loc o| | |]; try discriminate. unfold ctx2 in E. cbn [unplaced_inline] in E.
    injection E as -> -> E Em ->. rewrite span_eqb. unfold tick_span in N1. rewrite N1.
    cbn [rev] in E. apply map_snoc in E as (l0 & x & -> & E0 & Ex). rewrite last_opt_snoc.
    destruct x as [v1 f1 l1 m1 loc1 o1| | |]; try discriminate. cbn in Ex. injection Ex as -> -> Ex Em1 ->.
    rewrite span_eqb, same_span_refl, upd_last_snoc. cbn [inline_close inline_reconcile bind]. eexists. split; [reflexivity|].
    unfold ctx1. cbn [unplaced_inline]. rewrite map_app, E0. cbn. rewrite Ex, Em, Em1. reflexivity.
  Qed.
  Lemma open_mark k t lst ist me il force close dang wait :
    is_word (tick_word k) t -> header_ok [tick_word k] -> ref_closed close (map unplaced_inline ist) -> pending wait dang ->
    match map unplaced_inline ist with ISpan _ _ _ _ _ _ :: _ => False | _ => True end ->
    forallb (fun x => negb (is_open x)) (map unplaced_inline ist) = true ->
    exists i' ist', token_into w fuel t (C lst ist me None il false force close dang)
        = Ok (C lst (i' :: ist') None None il true force close None)
      /\ unplaced_inline i' = ctx1 (tick_variant k) (tick_form k) (option_map unplaced_meta me) []
      /\ map unplaced_inline ist' = if wait then weld false (map unplaced_inline ist) (said ["010"]) else map unplaced_inline ist.
  Proof.
    intros W H R P Tp O. destruct (tick_plain k) as [P1 P2]. rewrite (step _ t _ _ _ _ _ _ _ _ W H P1 P2), (tick_dispatch k t _ W).
    assert (parse_inline_span (new_span (tick_variant k) (tick_form k) (token_locations t)) (C lst ist me None il false force close dang)
      = parse_inline_span_new (new_span (tick_variant k) (tick_form k) (token_locations t)) (C lst ist me None il false force close dang)) as ->.
    { unfold parse_inline_span. cbn [p_istack C]. destruct ist as [|[| | |] ist]; try reflexivity. now destruct Tp. }
    unfold parse_inline_span_new. cbn [p_dangling C].
    assert (exists ist', (match dang with
        | Some nl => let* p := add_text_to_last_inline nl (C lst ist me None il false force close dang) in Ok (set_dangling None p)
        | None => Ok (C lst ist me None il false force close dang) end) = Ok (C lst ist' me None il false force close None)
        /\ map unplaced_inline ist' = (if wait then weld false (map unplaced_inline ist) (said ["010"]) else map unplaced_inline ist)
        /\ forallb (fun x => negb (is_open x)) (map unplaced_inline ist') = true) as (i1 & E1 & B1 & O1).
    { destruct dang as [d|].
      - destruct P as [-> Nl]. destruct (newline_text d Nl) as [Nt _]. unfold add_text_to_last_inline.
        destruct (add_out false d lst ist me None il force close (Some d) R) as (i1 & E1 & B1). rewrite E1. exists i1. rewrite Nt in B1.
        split; [reflexivity|]. split; [exact B1|]. rewrite B1. destruct (map unplaced_inline ist) as [|[| |[]|] st]; cbn in O |- *; auto.
      - cbn in P. subst wait. exists ist. auto. }
    fold C in E1. unfold C in *. rewrite E1. cbn [bind]. unfold handle_dangling_spans. cbn [p_istack].
    rewrite forallb_unplaced in O1 by (intros; now rewrite is_open_unplaced). rewrite (split_none_of is_open i1 O1). cbn [bind p_meta].
    destruct me as [md|]; cbn [bind inline_add_metadata new_span]; do 2 eexists; (split; [reflexivity|]); split; try exact B1; reflexivity.
  Qed.
  Lemma close_mark k t lst i ist me il force close dang m rk :
    is_word (tick_word k) t -> header_ok [tick_word k] -> unplaced_inline i = ctx1 (tick_variant k) (tick_form k) m rk ->
    exists i', token_into w fuel t (C lst (i :: ist) me None il true force close dang) = Ok (C lst (i' :: ist) me None il false force close dang)
      /\ unplaced_inline i' = ISpan (tick_variant k) (tick_form k) (rev rk) m [] false.
  Proof.
    intros W H E. destruct (tick_plain k) as [P1 P2]. rewrite (step _ t _ _ _ _ _ _ _ _ W H P1 P2), (tick_dispatch k t _ W).
    unfold parse_inline_span. cbn [p_istack C]. destruct i as [v' f' l m' loc o| | |]; try discriminate. unfold ctx1 in E. cbn [unplaced_inline] in E.
    injection E as -> -> E Em ->. rewrite span_eqb, same_span_refl. cbn [inline_reconcile inline_close bind]. eexists. split; [reflexivity|].
    cbn [unplaced_inline]. now rewrite E, Em.
  Qed.

  (** *** What stands in a mark *)
  Lemma top_literal any d b : b <> Newline -> exists n k s l r, fst (write_bit keep any e d b) = ILit n k s l :: r.
  Proof.
    intros N. assert (forall x, is_literal x = true -> exists n k s l r, fst (put keep any d x) = ILit n k s l :: r) as H.
    { intros x L. unfold put. cbn. destruct (snd d); [destruct (keeps_breaks keep)|]; try (now apply weld_top). destruct x; try discriminate. eauto 6. }
    destruct b; cbn [write_bit]; try (apply H; reflexivity); [|congruence]. now apply weld_top.
  Qed.
  Lemma words_split x y ts : are_words (x ++ y) ts -> exists t1 t2, ts = t1 ++ t2 /\ are_words x t1 /\ are_words y t2.
  Proof. intros H. apply Forall2_app_inv_l in H as (t1 & t2 & H1 & H2 & ->). eauto. Qed.
  Lemma words_cons x y ts : are_words (x :: y) ts -> exists t ts', ts = t :: ts' /\ is_word x t /\ are_words y ts'.
  Proof. intros H. inversion H. subst. eauto. Qed.
  Lemma loop_join x y p q r : parse_loop w fuel x p = Ok q -> parse_loop w fuel y q = r -> parse_loop w fuel (x ++ y) p = r.
  Proof. intros H <-. now apply loop_app. Qed.
  Lemma inners_in l v f m free : (free = true -> forall rk, is_macro (ctx1 v f m rk) = false) ->
    forall ts b lst i ist me il force close dang wait rk last,
    are_words (List.concat (map inner_words l)) ts -> ready (List.concat (map inner_words l)) ->
    calm_in b (List.concat (map inner_words l)) = true -> paced b lst -> inner_fits keep free (v, f) last l = true ->
    (free = true -> no_macro (map unplaced_inline ist)) ->
    unplaced_inline i = ctx1 v f m rk -> quiet rk -> last_is last rk -> pending wait dang -> keeps_breaks keep && wait = false ->
    exists lst' i' il' dang',
      parse_loop w fuel ts (C lst (i :: ist) me None il true force close dang) = Ok (C lst' (i' :: ist) me None il' true force close dang')
      /\ paced (after_words b (List.concat (map inner_words l))) lst'
      /\ let d := fold_left (write_inner keep e) l (rk, wait) in
         unplaced_inline i' = ctx1 v f m (fst d) /\ quiet (fst d) /\ pending (snd d) dang' /\ keeps_breaks keep && snd d = false.
  Proof.
    intros M. induction l as [|x l IH]; intros ts b lst i ist me il force close dang wait rk last W Rd Cm Pc F N E Q Ls P Kw.
    - inversion W. subst. exists lst, i, il, dang. cbn. auto 8.
    - cbn [map List.concat] in *. apply words_split in W as (t1 & t2 & -> & W1 & W2). apply ready_app in Rd as [R1 R2].
      apply calm_in_app in Cm as [C1 C2]. destruct x as [c|k bits].
      + cbn [inner_words] in *. apply words_cons in W1 as (t & t1' & -> & Wt & W1'). inversion W1'. subst t1'.
        cbn [calm_in] in C1. rewrite andb_true_r in C1. cbn [inner_fits] in F. apply andb_prop in F as [F1 F2].
        destruct (bit_in c t lst i ist me il force close dang wait (ctx1 v f m) rk free Wt R1 (calm_newline c b lst C1 Pc) F1)
          as (i1 & il1 & d1 & E1 & B1 & Q1 & P1 & K1); auto using cursor1.
        { intros Fr. unfold no_macro. cbn. rewrite E, (M Fr). exact (N Fr). }
        cbn [app]. rewrite (loop_cons _ _ _ _ E1). destruct Wt as (T & _). rewrite T.
        cbn [fold_left write_inner].
        assert (last_is (match c with Newline => last | _ => None end) (fst (write_bit keep true e (rk, wait) c))) as Ls1.
        { destruct c; try exact Ls; match goal with |- context [write_bit _ _ _ _ ?c] =>
            destruct (top_literal true (rk, wait) c) as (n0 & k0 & s0 & l0 & r0 & ->); [discriminate|exact I] end. }
        destruct (write_bit keep true e (rk, wait) c) as [rk1 w1].
        destruct (IH t2 _ (fst (bit_word c)) i1 ist me il1 force close d1 w1 rk1 _ W2 R2 C2 (bit_paced c) F2 N B1 Q1 Ls1 P1 K1)
          as (l2 & i2 & il2 & d2 & E2 & Pc2 & R).
        exists l2, i2, il2, d2. split; [exact E2|]. split; [exact Pc2|exact R].
      + cbn [inner_words] in *. apply words_cons in W1 as (t & t1' & -> & Wt & W1). apply words_split in W1 as (u1 & u2 & -> & Wb & Wc).
        apply words_cons in Wc as (tc & u2' & -> & Wc & Wn). inversion Wn. subst u2'.
        apply ready_cons in R1 as [Ra Rb]. apply ready_app in Rb as [Rb Rc].
        cbn [inner_fits] in F. apply andb_prop in F as [F F4]. apply andb_prop in F as [F F3]. apply andb_prop in F as [F1 F2].
        apply negb_true_iff in F1. assert (match last with Some t' => same_span (tick_span k) (tick_span t') = false | None => True end) as F2'.
        { destruct last; [now apply negb_true_iff|exact I]. }
        cbn [calm_in] in C1. apply andb_prop in C1 as [_ C1]. apply calm_in_app in C1 as [C1 _].
        destruct (open_nested k t lst i ist me il force close dang v f m rk last Wt (proj1 Ra) E Q F1 F2' Ls) as (i1 & E1 & B1).
        destruct (tick_steady k) as [Sk Nk]. rewrite Nk in C1. cbn [negb] in C1.
        destruct (bits_in bits u1 (ctx2 v f m rk (tick_variant k) (tick_form k)) free Wb (cursor2 _ _ _ _ _ _)) with
          (b := false) (lst := fst (tick_word k)) (i := i1) (ist := ist) (me := me) (il := il) (force := force) (close := close)
          (dang := dang) (wait := wait) (rk := @nil inline) as (l2 & i2 & il2 & d2 & E2 & _ & B2 & Q2 & P2 & K2); auto.
        { intros _. exact Sk. }
        { exact I. }
        destruct (close_nested k tc l2 i2 ist me il2 force close d2 v f m rk (fst (fold_left (write_bit keep true e) bits ([], wait))) Wc (proj1 Rc) B2 F1)
          as (i3 & E3 & B3).
        assert (parse_loop w fuel (t :: u1 ++ [tc]) (C lst (i :: ist) me None il true force close dang)
          = Ok (C (fst (tick_word k)) (i3 :: ist) me None il2 true force close d2)) as E4.
        { rewrite (loop_cons _ _ _ _ E1). destruct Wt as (T & _). rewrite T. rewrite (loop_app _ _ _ _ _ _ E2), (loop_cons _ _ _ _ E3).
          destruct Wc as (T' & _). rewrite T'. reflexivity. }
        assert (after_words b (tick_word k :: map bit_word bits ++ [tick_word k]) = false) as Aw.
        { change (tick_word k :: map bit_word bits ++ [tick_word k]) with ((tick_word k :: map bit_word bits) ++ [tick_word k]).
          rewrite after_words_app. unfold after_words at 1. cbn. now rewrite Nk. }
        rewrite Aw in C2. cbn [fold_left write_inner]. cbn [snd fst].
        destruct (fold_left (write_bit keep true e) bits ([], wait)) as [kids w2].
        destruct (IH t2 false (fst (tick_word k)) i3 ist me il2 force close d2 w2
                    (ISpan (tick_variant k) (tick_form k) (rev kids) None [] false :: rk) (Some k) W2 R2 C2 (fun _ => Sk) F4 N B3)
          as (l5 & i5 & il5 & d5 & E5 & Pc5 & R); auto.
        { exact I. }
        { exists k. auto. }
        exists l5, i5, il5, d5. rewrite after_words_app, Aw. split; [|auto]. now apply (loop_join _ _ _ _ _ E4).
  Qed.

  (** *** Styles *)
  Lemma style_step roles t lst ist me il sp force close dang :
    is_word (TInlineStyle, "[" :: List.concat (map (cons ".") roles) ++ ["]"]) t ->
    header_ok [(TInlineStyle, "[" :: List.concat (map (cons ".") roles) ++ ["]"])] -> roles <> [] -> forallb role_fits roles = true ->
    exists m, token_into w fuel t (C lst ist me None il sp force close dang) = Ok (C lst ist (Some m) None il sp true close dang)
      /\ Some (unplaced_meta m) = style_meta roles.
  Proof.
    intros W H N F. rewrite (step _ t _ _ _ _ _ _ _ _ W H); try discriminate. destruct W as (T & L & _).
    destruct (style_token roles t N F L) as (m & E & B). exists m. split; [|exact B].
    unfold dispatch. rewrite T. cbn [fst]. unfold parse_inline_element_attributes. rewrite E. reflexivity.
  Qed.

  (** *** Links *)
  (** a link is open: with [k] its text so far, the last first, on top of [st] *)
  Definition linking (close : bool) (target : bytes) (ist k st : list inline) : Prop :=
    if close then exists lits i r, ist = lits ++ i :: r /\ map unplaced_inline lits = k
                    /\ unplaced_inline i = IRef RLink target [] None [] /\ map unplaced_inline r = st
    else exists i r, ist = i :: r /\ unplaced_inline i = IRef RLink target (rev k) None [] /\ map unplaced_inline r = st.
  Definition single (k : list inline) : Prop := exists s, k = [said s].
  Lemma link_add u lst ist me ot il force close dang target k st : linking close target ist k st ->
    (k = [] /\ lexeme u = token_text u) \/ single k ->
    exists ist', add_to_last_inline false u (C lst ist me ot il false force close dang) = Ok (C lst ist' me ot il false force close dang)
      /\ linking close target ist' (weld false k (said (token_text u))) st /\ single (weld false k (said (token_text u))).
  Proof.
    unfold linking, add_to_last_inline. cbn [p_istack p_in_span p_close_parent C]. destruct close.
    - intros (lits & i & r & -> & Ek & Ei & Er) [[-> X]|[s ->]].
      + apply map_eq_nil in Ek as ->. cbn [app]. destruct i as [|v tg l m loc| |]; try discriminate. cbn [negb].
        eexists. split; [reflexivity|]. split; [|eexists; reflexivity]. exists [lit_text u], (IRef v tg l m loc), r. repeat split; assumption.
      + destruct lits as [|x [|y lits]]; try discriminate. cbn in Ek. injection Ek as Ek. destruct x as [| |n kk v loc|]; try discriminate.
        cbn in Ek. injection Ek as -> -> ->. cbn [app]. eexists. split; [reflexivity|]. split; [|eexists; reflexivity].
        eexists [_], i, r. split; [reflexivity|]. split; [reflexivity|]. split; assumption.
    - intros (i & r & -> & Ei & Er) [[-> X]|[s ->]].
      + destruct i as [|v tg l m loc| |]; try discriminate. cbn in Ei. injection Ei as -> -> Ei Em. apply map_eq_nil in Ei as ->.
        cbn [negb ref_text_from_token]. unfold last_opt. cbn [rev]. cbn [bind]. eexists. split; [reflexivity|]. split; [|eexists; reflexivity].
        eexists _, r. split; [reflexivity|]. split; [|exact Er]. cbn. rewrite Em, X. reflexivity.
      + destruct i as [|v tg l m loc| |]; try discriminate. cbn in Ei. injection Ei as -> -> Ei Em.
        destruct l as [|x [|y l]]; try discriminate. cbn in Ei. injection Ei as Ei. destruct x as [| |n kk sx locx|]; try discriminate. cbn in Ei. injection Ei as -> -> ->.
        cbn [negb ref_text_from_token]. unfold last_opt. cbn [rev app upd_last' bind]. eexists. split; [reflexivity|]. split; [|eexists; reflexivity].
        eexists _, r. split; [reflexivity|]. split; [|exact Er]. cbn. rewrite Em. reflexivity.
  Qed.
  Lemma link_text u lst ist me ot il force close dang wait target k st : linking close target ist k st ->
    (k = [] /\ lexeme u = token_text u) \/ single k -> pending wait dang -> keeps_breaks keep && wait = false ->
    exists ist', parse_text u (C lst ist me ot il false force close dang) = Ok (C lst ist' me ot il false force close None)
      /\ let k' := fst (put keep false (k, wait) (said (token_text u))) in linking close target ist' k' st /\ single k'.
  Proof.
    intros L K P Kw. unfold parse_text, flush_dangling. cbn [p_dangling p_preserve_nl C]. destruct dang as [d|].
    - destruct P as [-> Nl]. rewrite andb_true_r in Kw. rewrite Kw. destruct (newline_text d Nl) as [Nt Nx].
      destruct (link_add d lst ist me ot il force close (Some d) target k st L) as (i1 & E1 & L1 & K1).
      { destruct K as [[-> _]|K]; [left; split; [reflexivity|congruence]|now right]. }
      unfold add_text_to_last_inline. rewrite E1. cbn [bind].
      destruct (link_add u lst i1 me ot il force close None target _ st L1 (or_intror K1)) as (i2 & E2 & L2 & K2).
      exists i2. split; [exact E2|]. unfold put. cbn [fst snd]. rewrite Nt in L2, K2. rewrite ?Kw. split; assumption.
    - cbn in P. subst wait. cbn [bind]. destruct (link_add u lst ist me ot il force close None target k st L K) as (i2 & E2 & L2 & K2).
      exists i2. split; [exact E2|]. split; assumption.
  Qed.
  Definition link_bit (b : bit) : bool := match b with Signed _ => false | _ => bit_fits keep false b end.
  Lemma link_step b t lst ist me il force close dang wait target k st : linking close target ist k st ->
    is_word (bit_word b) t -> ready [bit_word b] -> (b = Newline -> steady lst) -> link_bit b = true ->
    (k = [] /\ exists s, b = Said s) \/ single k -> pending wait dang -> keeps_breaks keep && wait = false ->
    exists ist' il' dang', token_into w fuel t (C lst ist me None il false force close dang) = Ok (C lst ist' me None il' false force close dang')
      /\ let d := write_bit keep false e (k, wait) b in
         linking close target ist' (fst d) st /\ single (fst d) /\ pending (snd d) dang' /\ keeps_breaks keep && snd d = false.
  Proof.
    intros L W Rd St F K P Kw. destruct (bit_plain b) as [P1 P2]. rewrite (step _ t _ _ _ _ _ _ _ _ W (proj1 Rd) P1 P2).
    destruct b as [s|q|name|s| |]; cbn [bit_word] in *; try discriminate.
    - destruct (said_dispatch s t (C lst ist me None il false force close dang) W) as [-> X].
      destruct (link_text t lst ist me None il force close dang wait target k st L) as (i1 & E1 & L1 & K1); auto.
      { destruct K as [[-> _]|K]; [left; split; [reflexivity|]|now right]. rewrite X. apply W. }
      rewrite X in *. exists i1, il, None. split; [exact E1|]. cbn [write_bit]. split; [exact L1|]. split; [exact K1|]. split; [reflexivity|apply andb_false_r].
    - destruct K as [[_ [s Ks]]|K]; [discriminate|].
      destruct (quote_dispatch q t (C lst ist me None il false force close dang) W) as [-> X].
      destruct (link_text t lst ist me None il force close dang wait target k st L) as (i1 & E1 & L1 & K1); auto.
      rewrite X in *. exists i1, il, None. split; [exact E1|]. cbn [write_bit]. split; [exact L1|]. split; [exact K1|]. split; [reflexivity|apply andb_false_r].
    - destruct K as [[_ [s Ks]]|K]; [discriminate|].
      destruct (valued_dispatch name t (C lst ist me None il false force close dang) W F eq_refl) as (u & -> & X).
      destruct (link_text u lst ist me None il force close dang wait target k st L) as (i1 & E1 & L1 & K1); auto.
      rewrite X in *. exists i1, il, None. split; [exact E1|]. cbn [write_bit]. split; [exact L1|]. split; [exact K1|]. split; [reflexivity|apply andb_false_r].
    - destruct K as [[_ [s Ks]]|K]; [discriminate|].
      rewrite (newline_dispatch t lst ist me il false force close dang W (ready_title _ Rd eq_refl) (St eq_refl)).
      exists ist, false, (hung t). cbn in F. apply negb_true_iff in F. split; [reflexivity|]. cbn [write_bit fst snd]. split; [exact L|]. split; [exact K|].
      split; [now apply hung_pending|]. now rewrite F.
  Qed.
  Lemma link_bits l : forall ts b lst ist me il force close dang wait target k st, are_words (map bit_word l) ts -> linking close target ist k st ->
    ready (map bit_word l) -> calm_in b (map bit_word l) = true -> paced b lst -> forallb link_bit l = true ->
    (k = [] /\ match l with [] => True | Said _ :: _ => True | _ => False end) \/ single k -> pending wait dang -> keeps_breaks keep && wait = false ->
    exists lst' ist' il' dang', parse_loop w fuel ts (C lst ist me None il false force close dang) = Ok (C lst' ist' me None il' false force close dang')
      /\ let d := fold_left (write_bit keep false e) l (k, wait) in
         linking close target ist' (fst d) st /\ (fst d = [] \/ single (fst d)) /\ pending (snd d) dang' /\ keeps_breaks keep && snd d = false.
  Proof.
    induction l as [|c l IH]; intros ts b lst ist me il force close dang wait target k st W L Rd Cm Pc F K P Kw.
    - inversion W. subst. exists lst, ist, il, dang. cbn. split; [reflexivity|]. split; [exact L|]. split; [|auto]. destruct K as [[K _]|K]; auto.
    - cbn [map] in *. apply words_cons in W as (t & ts' & -> & Wt & W). apply ready_cons in Rd as [R1 R2]. cbn [calm_in forallb] in Cm, F.
      apply andb_prop in Cm as [C1 C2]. apply andb_prop in F as [F1 F2].
      destruct (link_step c t lst ist me il force close dang wait target k st L Wt R1 (calm_newline c b lst C1 Pc) F1) as (i1 & il1 & d1 & E1 & L1 & K1 & P1 & Kw1); auto.
      { destruct K as [[-> K]|K]; [left|now right]. split; [reflexivity|]. destruct c; try contradiction. eauto. }
      rewrite (loop_cons _ _ _ _ E1). destruct Wt as (T & _). rewrite T. cbn [fold_left].
      destruct (write_bit keep false e (k, wait) c) as [k1 w1].
      destruct (IH ts' _ (fst (bit_word c)) i1 me il1 force close d1 w1 target k1 st W L1 R2 C2 (bit_paced c) F2 (or_intror K1) P1 Kw1)
        as (l2 & i2 & il2 & d2 & E2 & R). exists l2, i2, il2, d2. split; [exact E2|exact R].
  Qed.
  Lemma link_close t lst ist me il force close dang target k st : linking close target ist k st -> k = [] \/ single k ->
    is_word macro_close t -> header_ok [macro_close] ->
    exists ist', token_into w fuel t (C lst ist me None il false force close dang) = Ok (C lst ist' me None il false force true dang)
      /\ map unplaced_inline ist' = IRef RLink target (rev k) None [] :: st.
  Proof.
    intros L K W H. rewrite (step _ t _ _ _ _ _ _ _ _ W H); try discriminate. destruct W as (T & _). unfold dispatch. rewrite T. cbn [fst macro_close].
    unfold parse_inline_macro_close. cbn [p_open_type C p_istack]. destruct close.
    - destruct L as (lits & i & r & -> & Ek & Ei & Er). destruct i as [|v tg l m loc| |]; try discriminate. cbn in Ei. injection Ei as -> -> Ei Em.
      apply map_eq_nil in Ei as ->. destruct K as [->|[s ->]].
      + apply map_eq_nil in Ek as ->. cbn. eexists. split; [reflexivity|]. cbn. now rewrite Em, Er.
      + destruct lits as [|x [|y lits]]; try discriminate. cbn in Ek. injection Ek as Ek. destruct x as [| |n kk v loc'|]; try discriminate. cbn in Ek. injection Ek as -> -> ->.
        cbn. eexists. split; [reflexivity|]. cbn. now rewrite Em, Er.
    - destruct L as (i & r & -> & Ei & Er). destruct i as [|v tg l m loc| |]; try discriminate. cbn in Ei. injection Ei as -> -> Ei Em.
      cbn. eexists. split; [reflexivity|]. cbn. now rewrite Ei, Em, Er.
  Qed.

  (** *** Passed text *)
  Lemma pass_words ws : hd = None -> forall ts lst ist me il force close dang wait, are_words ws ts ->
    forallb (fun x => match fst x with TPassthroughInlineMacro | TInlineMacroClose => false | _ => true end) ws = true ->
    ref_closed close (map unplaced_inline ist) -> pending wait dang ->
    exists lst' ist' dang',
      parse_loop w fuel ts (C lst ist me (Some TPassthroughInlineMacro) il false force close dang)
        = Ok (C lst' ist' me (Some TPassthroughInlineMacro) il false force close dang')
      /\ let d := fold_left (fun d x => put keep false d (said (snd x))) ws (map unplaced_inline ist, wait) in
         map unplaced_inline ist' = fst d /\ pending (snd d) dang'.
  Proof.
    intros Hd. induction ws as [|x ws IH]; intros ts lst ist me il force close dang wait W F R P.
    - inversion W. subst. exists lst, ist, dang. cbn. auto.
    - apply words_cons in W as (t & ts' & -> & Wt & W). cbn [forallb] in F. apply andb_prop in F as [F1 F2].
      destruct (pass_out t lst ist me (Some TPassthroughInlineMacro) il force close dang wait R P) as (i1 & E1 & B1).
      assert (token_into w fuel t (C lst ist me (Some TPassthroughInlineMacro) il false force close dang)
        = Ok (C lst i1 me (Some TPassthroughInlineMacro) il false force close None)) as E2.
      { rewrite <- E1. destruct Wt as (T & _). unfold C. rewrite Hd.
        destruct fuel; cbn [token_into p_header bind]; unfold pre_dispatch; cbn [p_open_type]; rewrite T; destruct (fst x); try discriminate; reflexivity. }
      rewrite (loop_cons _ _ _ _ E2). destruct Wt as (T & L & _). rewrite L in B1.
      assert (ref_closed close (map unplaced_inline i1)) as R1.
      { rewrite B1. exact (put_ref_closed false (Said (snd x)) _ wait close R). }
      cbn [fold_left].
      destruct (IH ts' (ttype t) i1 me il force close None false W F2 R1 eq_refl) as (l2 & i2 & d2 & E3 & B2).
      exists l2, i2, d2. split; [exact E3|]. rewrite B1 in B2. exact B2.
  Qed.

  (** *** Elements *)
  (** what is known of the stack: see [fits] *)
  Definition fine (after noted linked close : bool) (st : list inline) : Prop :=
    (after = false -> match st with ISpan _ _ _ _ _ _ :: _ => False | _ => True end)
    /\ (noted = false -> forallb (fun x => negb (is_open x)) st = true)
    /\ (noted = false -> linked = false -> no_macro st)
    /\ ref_closed close st.
  Definition waits_after (waits : bool) (x : element) : bool :=
    match x with
    | Bit Newline => true
    | Bit Bracket | HardBreak | Xref _ | Image _ _ | Passed [] | Remark _ => waits
    | Bit _ | Marked _ _ _ | Link _ _ | Note _ | Passed _ | Url _ => false
    end.
  Definition after_after (after : bool) (x : element) : bool :=
    match x with Bit Newline | Passed [] | Remark _ => after | Marked _ _ _ | Note _ => true | _ => false end.
  Definition noted_after (noted : bool) (x : element) : bool := match x with Note _ => true | _ => noted end.
  Definition linked_after (linked : bool) (x : element) : bool := match x with Link _ _ | Note _ => true | _ => linked end.
  Definition is_url (x : element) : bool := match x with Url _ => true | _ => false end.
  Definition el_ok (waits after noted linked : bool) (x : element) : bool :=
    match x with
    | Bit Newline | HardBreak | Remark _ | Url _ => true
    | Bit Bracket => negb noted && negb linked
    | Bit b => bit_fits keep false b
    | Marked roles t k =>
        negb after && negb noted && forallb role_fits roles && inner_fits keep (negb linked) (tick_span t) None k
    | Link _ k => negb (keeps_breaks keep && waits) && link_fits keep k
    | Xref s => match s with [] => true | c :: _ => negb (is_cont c) end
    | Image s alt => match s with [] => true | c :: _ => negb (is_cont c) end && target_fits s && alt_fits alt
    | Note k => negb (keeps_breaks keep && waits) && inner_fits keep false (SFootnote, FConstrained) None k
    | Passed ws => forallb (fun w => match fst w with TPassthroughInlineMacro | TInlineMacroClose => false | _ => true end) ws
    end.
  Lemma fits_cons waits after noted linked x r : fits keep waits after noted linked (x :: r) = true ->
    el_ok waits after noted linked x = true
    /\ ((is_url x = true /\ r = [])
        \/ (is_url x = false /\ fits keep (waits_after waits x) (after_after after x) (noted_after noted x) (linked_after linked x) r = true)).
  Proof.
    destruct x as [[]| | | | | | |[|]| |]; cbn [fits el_ok waits_after after_after noted_after linked_after is_url]; intros H;
      repeat (apply andb_prop in H as [? H] || (apply andb_prop in H as [H ?]));
      repeat match goal with K : ?x = true |- _ => rewrite K; clear K end; auto.
    destruct r; [auto|discriminate].
  Qed.

  Lemma weld_free (f : inline -> bool) any st x : (forall n k s l, f (ILit n k s l) = false) -> is_literal x = true ->
    forallb (fun x => negb (f x)) st = true -> forallb (fun x => negb (f x)) (weld any st x) = true.
  Proof.
    intros F L H. destruct x as [| |xn xk xs xl|]; try discriminate.
    destruct st as [|[| |n k s l|] st]; cbn [weld forallb] in *; rewrite ?F; cbn [negb andb]; auto.
    rewrite F in H. destruct n, xn; cbn [forallb]; rewrite ?F; cbn; try exact H; destruct any; cbn [forallb]; rewrite ?F; cbn; exact H.
  Qed.
  Lemma put_free (f : inline -> bool) any d x : (forall n k s l, f (ILit n k s l) = false) -> is_literal x = true ->
    forallb (fun x => negb (f x)) (fst d) = true -> forallb (fun x => negb (f x)) (fst (put keep any d x)) = true.
  Proof.
    intros F L H. unfold put. cbn [fst]. destruct (snd d); [destruct (keeps_breaks keep)|]; repeat apply weld_free; auto.
    destruct x; try discriminate. unfold said. cbn. rewrite !F. exact H.
  Qed.
  Lemma write_bit_free (f : inline -> bool) any d b : (forall n k s l, f (ILit n k s l) = false) ->
    forallb (fun x => negb (f x)) (fst d) = true -> forallb (fun x => negb (f x)) (fst (write_bit keep any e d b)) = true.
  Proof. intros F H. destruct b; cbn [write_bit]; try (apply put_free; auto); [|exact H]. cbn [fst]. now apply weld_free. Qed.
  Lemma fine_bit after noted linked close st wait b : fine after noted linked close st ->
    fine (match b with Newline => after | _ => false end) noted linked close (fst (write_bit keep false e (st, wait) b)).
  Proof.
    intros (F1 & F2 & F3 & F4). split; [|split; [|split]].
    - destruct b; try (intros _; match goal with |- context [write_bit _ _ _ _ ?c] =>
            destruct (top_literal false (st, wait) c) as (n0 & k0 & s0 & l0 & r0 & ->); [discriminate|exact I] end). exact F1.
    - intros N. apply write_bit_free; auto.
    - intros N L. apply write_bit_free; auto. exact (F3 N L).
    - now apply put_ref_closed.
  Qed.
  Lemma fine_top noted linked close after st : fine after noted linked close st ->
    fine false noted linked close (IBreak [] :: st)
    /\ (forall v tg l m, ref_variant_beq v RLink = false -> fine false noted linked true (IRef v tg l m [] :: st))
    /\ (forall tg l m, fine false noted true true (IRef RLink tg l m [] :: st)).
  Proof.
    intros (F1 & F2 & F3 & F4). unfold no_macro in *. split; [|split].
    - split; [|split; [|split]]; cbn; auto.
    - intros v tg l m N. split; [|split; [|split]]; cbn; auto. intros X Y. unfold no_macro. cbn. rewrite N. cbn. auto.
    - intros tg l m. split; [|split; [|split]]; cbn; auto. discriminate.
  Qed.
  Lemma fine_fold noted linked close (ws : list word) : forall after st wait, fine after noted linked close st ->
    fine (match ws with [] => after | _ => false end) noted linked close (fst (fold_left (fun d x => put keep false d (said (snd x))) ws (st, wait))).
  Proof.
    induction ws as [|x ws IH]; intros after st wait F; [exact F|]. cbn [fold_left].
    pose proof (fine_bit _ _ _ _ _ wait (Said (snd x)) F) as F'. cbn [write_bit] in F'.
    assert (fine false noted linked close (fst (put keep false (st, wait) (said (snd x))))) as F2 by exact F'.
    change (put keep false (st, wait) (said (snd x))) with (fst (put keep false (st, wait) (said (snd x))), false).
    specialize (IH _ _ false F2). destruct ws; exact IH.
  Qed.
  Lemma tick_macro t m rk : is_macro (ctx1 (tick_variant t) (tick_form t) m rk) = false.
  Proof. destruct t as [[]|[]| |]; reflexivity. Qed.

  Lemma fold_draft {A} (f : draft -> A -> draft) l k wait : fold_left f l (k, wait) = (fst (fold_left f l (k, wait)), snd (fold_left f l (k, wait))).
  Proof. now destruct (fold_left f l (k, wait)). Qed.
  Lemma header_none x ws : ready (x :: ws) -> header_word x = false -> hd = None.
  Proof. intros [[H|H] _] N; [exact H|]. cbn in H. rewrite N in H. discriminate. Qed.
  Lemma after_last b ws x : not_newline x = true -> after_words b (ws ++ [x]) = false.
  Proof. intros H. rewrite after_words_app. cbn. now rewrite H. Qed.

  Lemma element_step x ts b lst ist me il force close dang wait waits after noted linked :
    are_words (element_words x) ts -> ready (element_words x) -> calm_in b (element_words x) = true -> paced b lst ->
    el_ok waits after noted linked x = true -> fine after noted linked close (map unplaced_inline ist) -> pending wait dang ->
    (keeps_breaks keep = true -> wait = true -> waits = true) ->
    exists lst' ist' me' il' dang',
      parse_loop w fuel ts (C lst ist me None il false force close dang)
        = Ok (C lst' ist' me' None il' false (force || styled [x]) (close || macros [x]) dang')
      /\ paced (after_words b (element_words x)) lst'
      /\ let s := write keep e (map unplaced_inline ist, wait, option_map unplaced_meta me) x in
         map unplaced_inline ist' = fst (fst s) /\ pending (snd (fst s)) dang' /\ option_map unplaced_meta me' = snd s
         /\ (is_url x = false -> fine (after_after after x) (noted_after noted x) (linked_after linked x) (close || macros [x]) (fst (fst s)))
         /\ (keeps_breaks keep = true -> snd (fst s) = true -> waits_after waits x = true \/ is_url x = true).
  Proof.
    intros W Rd Cm Pc F Fn P Wt. destruct x as [c|roles t l| |target l|target|target alt|l|ws|s|s]; cbn [element_words] in *.
    - (* a bit *)
      replace (force || styled [Bit c]) with force by (cbn; now rewrite orb_false_r).
      replace (close || macros [Bit c]) with close by (cbn; now rewrite orb_false_r).
      apply words_cons in W as (u & ts' & -> & Wu & Wn). inversion Wn. subst ts'. cbn [calm_in] in Cm. rewrite andb_true_r in Cm.
      destruct (bit_out c u lst ist me il force close dang wait Wu Rd (calm_newline c b lst Cm Pc)) as (i1 & il1 & d1 & E1 & B1 & P1); auto.
      { destruct c; try exact I. exact F. }
      { intros ->. cbn in F. apply andb_prop in F as [F1 F2]. apply negb_true_iff in F1, F2. now apply Fn. }
      { apply Fn. }
      exists (fst (bit_word c)), i1, me, il1, d1. split; [|split; [exact (bit_paced c)|]].
      + rewrite (loop_cons _ _ _ _ E1). destruct Wu as (T & _). rewrite T. reflexivity.
      + cbn [write fst snd]. split; [exact B1|]. split; [exact P1|]. split; [reflexivity|]. split.
        * intros _. pose proof (fine_bit _ _ _ _ _ wait c Fn) as H. destruct c; exact H.
        * intros K X. left. destruct c; try discriminate; cbn in X |- *; auto.
    - (* a marked text *)
      cbn [el_ok] in F. apply andb_prop in F as [F F4]. apply andb_prop in F as [F F3]. apply andb_prop in F as [F1 F2].
      apply negb_true_iff in F1, F2. destruct Fn as (Fa & Fb & Fc & Fd). specialize (Fa F1). specialize (Fb F2).
      assert (exists ts1 ts2 lst1 me1 force1, ts = ts1 ++ ts2 /\ are_words (tick_word t :: List.concat (map inner_words l) ++ [tick_word t]) ts2
        /\ parse_loop w fuel ts1 (C lst ist me None il false force close dang) = Ok (C lst1 ist me1 None il false force1 close dang)
        /\ option_map unplaced_meta me1 = mark_meta (option_map unplaced_meta me) roles /\ force1 = force || styled [Marked roles t l])
        as (ts1 & ts2 & lst1 & me1 & force1 & -> & W2 & E0 & Em & Ef).
      { destruct roles as [|r roles].
        - exists [], ts, lst, me, force. split; [reflexivity|]. split; [exact W|]. split; [reflexivity|]. split; [reflexivity|]. cbn. now rewrite orb_false_r.
        - cbn [style_words app] in *. apply words_cons in W as (u & ts' & -> & Wu & W). apply ready_cons in Rd as [R1 _].
          destruct (style_step (r :: roles) u lst ist me il false force close dang Wu (proj1 R1)) as (m & E & B); [discriminate|exact F3|].
          exists [u], ts', (ttype u), (Some m), true. split; [reflexivity|]. split; [exact W|]. split; [rewrite (loop_cons _ _ _ _ E); reflexivity|].
          split; [exact B|]. cbn. now rewrite orb_true_r. }
      rewrite <- Ef. clear W. apply words_cons in W2 as (u & ts3 & -> & Wu & W2). apply words_split in W2 as (u1 & u2 & -> & Wb & Wc).
      apply words_cons in Wc as (tc & u3 & -> & Wc & Wn). inversion Wn. subst u3.
      apply ready_app in Rd as [_ Rd]. apply ready_cons in Rd as [Ra Rb]. apply ready_app in Rb as [Rb Rc].
      apply calm_in_app in Cm as [_ Cm]. cbn [calm_in] in Cm. apply andb_prop in Cm as [_ Cm]. apply calm_in_app in Cm as [Cm _].
      destruct (tick_steady t) as [St Nt]. rewrite Nt in Cm. cbn [negb] in Cm.
      destruct (open_mark t u lst1 ist me1 il force1 close dang wait Wu (proj1 Ra) Fd P Fa Fb) as (i1 & ist1 & E1 & B1 & B2).
      destruct (inners_in l (tick_variant t) (tick_form t) (option_map unplaced_meta me1) (negb linked)) with
        (ts := u1) (b := false) (lst := fst (tick_word t)) (i := i1) (ist := ist1) (me := @None metadata) (il := il) (force := force1) (close := close)
        (dang := @None token) (wait := false) (rk := @nil inline) (last := @None tick) as (l2 & i2 & il2 & d2 & E2 & _ & B3 & Q3 & P3 & K3); auto.
      { intros _ rk. apply tick_macro. }
      { intros _. exact St. }
      { intros Ln. apply negb_true_iff in Ln. specialize (Fc F2 Ln). rewrite B2. destruct wait; [|exact Fc]. apply weld_free; auto. }
      { exact I. }
      { exact I. }
      { reflexivity. }
      { apply andb_false_r. }
      destruct (close_mark t tc l2 i2 ist1 None il2 force1 close d2 _ _ Wc (proj1 Rc) B3) as (i3 & E3 & B4).
      exists (fst (tick_word t)), (i3 :: ist1), None, il2, d2. replace (close || macros [Marked roles t l]) with close by (cbn; now rewrite orb_false_r).
      split; [|split].
      + rewrite (loop_app _ _ _ _ _ _ E0), (loop_cons _ _ _ _ E1). destruct Wu as (T & _). rewrite T.
        rewrite (loop_app _ _ _ _ _ _ E2), (loop_cons _ _ _ _ E3). destruct Wc as (T' & _). rewrite T'. reflexivity.
      + intros _. exact St.
      + cbn [write fst snd]. rewrite fold_draft. cbn [fst snd map]. rewrite B4, B2, Em. split; [reflexivity|]. split; [exact P3|]. split; [reflexivity|]. split.
        * intros _. unfold fine. cbn [after_after noted_after linked_after]. split; [discriminate|].
          assert (forall f : inline -> bool, (forall n k s l, f (ILit n k s l) = false) -> forallb (fun x => negb (f x)) (map unplaced_inline ist) = true ->
            forallb (fun x => negb (f x)) (if wait then weld false (map unplaced_inline ist) (said ["010"]) else map unplaced_inline ist) = true) as Hf.
          { intros f Lf H. destruct wait; [|exact H]. now apply weld_free. }
          split; [intros _; cbn; apply Hf; auto|]. split; [|exact I]. intros _ Ln. unfold no_macro. cbn [forallb].
          rewrite (Hf is_macro) by (auto; exact (Fc F2 Ln)). destruct t as [[]|[]| |]; reflexivity.
        * intros K X. rewrite X, andb_true_r, K in K3. discriminate.
    - (* a hard break *)
      replace (force || styled [HardBreak]) with force by (cbn; now rewrite orb_false_r).
      replace (close || macros [HardBreak]) with close by (cbn; now rewrite orb_false_r).
      apply words_cons in W as (u & ts' & -> & Wu & Wn). inversion Wn. subst ts'.
      exists TLineContinuation, (IBreak (token_locations u) :: ist), me, il, dang. split; [|split].
      + erewrite loop_cons.
        2: { rewrite (step _ u _ _ _ _ _ _ _ _ Wu (proj1 Rd)); try discriminate. unfold dispatch. rewrite (proj1 Wu). reflexivity. }
        rewrite (proj1 Wu). reflexivity.
      + intros _. split; reflexivity.
      + cbn [write fst snd map unplaced_inline]. split; [reflexivity|]. split; [exact P|]. split; [reflexivity|]. split; [|intros K X; left; now apply Wt].
        intros _. exact (proj1 (fine_top _ _ _ _ _ Fn)).
    - (* a link *)
      replace (force || styled [Link target l]) with force by (cbn; now rewrite orb_false_r).
      replace (close || macros [Link target l]) with true by (cbn; now rewrite orb_true_r).
      apply words_cons in W as (u & ts' & -> & Wu & W). apply words_split in W as (u1 & u2 & -> & Wb & Wc).
      apply words_cons in Wc as (tc & u3 & -> & Wc & Wn). inversion Wn. subst u3.
      apply ready_cons in Rd as [Ra Rb]. apply ready_app in Rb as [Rb Rc].
      cbn [calm_in] in Cm. apply andb_prop in Cm as [_ Cm]. apply calm_in_app in Cm as [Cm _]. cbn [not_newline fst negb] in Cm.
      cbn [el_ok] in F. apply andb_prop in F as [F1 F2]. apply negb_true_iff in F1.
      assert (keeps_breaks keep && wait = false) as Kw.
      { destruct (keeps_breaks keep) eqn:K, wait eqn:X; try reflexivity. rewrite Wt in F1; auto. }
      assert (token_into w fuel u (C lst ist me None il false force close dang)
        = Ok (C lst (IRef RLink target [] None (token_locations u) :: ist) me None il false force close dang)) as E1.
      { rewrite (step _ u _ _ _ _ _ _ _ _ Wu (proj1 Ra)); try discriminate. unfold dispatch. rewrite (proj1 Wu). cbn [fst]. unfold new_link_macro.
        pose proof (word_text _ _ Wu) as X. cbn [fst snd] in X. rewrite X, link_target. reflexivity. }
      assert (linking close target (IRef RLink target [] None (token_locations u) :: ist) [] (map unplaced_inline ist)) as L1.
      { destruct close; [exists []; cbn; eauto 8|cbn; eauto 6]. }
      destruct (link_bits l u1 false TLinkMacro _ me il force close dang wait target [] _ Wb L1 Rb Cm) as (l2 & i2 & il2 & d2 & E2 & L2 & K2 & P2 & Kw2); auto.
      { intros _. split; reflexivity. }
      { destruct l as [|[] l]; try discriminate; [reflexivity|]. cbn. exact F2. }
      { left. split; [reflexivity|]. destruct l as [|[] l]; try discriminate; exact I. }
      destruct (link_close tc l2 i2 me il2 force close d2 target _ _ L2 K2 Wc (proj1 Rc)) as (i3 & E3 & B3).
      exists TInlineMacroClose, i3, me, il2, d2. split; [|split].
      + rewrite (loop_cons _ _ _ _ E1), (proj1 Wu). rewrite (loop_app _ _ _ _ _ _ E2), (loop_cons _ _ _ _ E3), (proj1 Wc). reflexivity.
      + intros _. split; reflexivity.
      + cbn [write fst snd]. rewrite fold_draft. cbn [fst snd]. split; [exact B3|]. split; [exact P2|]. split; [reflexivity|]. split.
        * intros _. exact (proj2 (proj2 (fine_top _ _ _ _ _ Fn)) _ _ _).
        * intros K X. rewrite X, andb_true_r, K in Kw2. discriminate.
    - (* a cross reference *)
      replace (force || styled [Xref target]) with force by (cbn; now rewrite orb_false_r).
      replace (close || macros [Xref target]) with true by (cbn; now rewrite orb_true_r).
      apply words_cons in W as (u & ts' & -> & Wu & Wn). inversion Wn. subst ts'.
      exists TCrossReference, (IRef RXref target [] None (token_locations u) :: ist), me, il, dang. split; [|split].
      + erewrite loop_cons.
        2: { rewrite (step _ u _ _ _ _ _ _ _ _ Wu (proj1 Rd)); try discriminate. unfold dispatch. rewrite (proj1 Wu). cbn [fst]. unfold parse_cross_reference, new_xref.
             pose proof (word_text _ _ Wu) as X. cbn [fst snd] in X. rewrite X, xref_target; [reflexivity|]. cbn in F. destruct target; [exact I|]. cbn. now apply negb_true_iff. }
        rewrite (proj1 Wu). reflexivity.
      + intros _. split; reflexivity.
      + cbn [write fst snd map unplaced_inline]. split; [reflexivity|]. split; [exact P|]. split; [reflexivity|]. split; [|intros K X; left; now apply Wt].
        intros _. exact (proj1 (proj2 (fine_top _ _ _ _ _ Fn)) RXref _ _ _ eq_refl).
    - (* an image *)
      replace (force || styled [Image target alt]) with force by (cbn; now rewrite orb_false_r).
      replace (close || macros [Image target alt]) with true by (cbn; now rewrite orb_true_r).
      apply words_cons in W as (u & ts' & -> & Wu & Wn). inversion Wn. subst ts'.
      exists TInlineImageMacro, (IRef RImage target [] (alt_meta alt) (token_locations u) :: ist), me, il, dang.
      cbn in F. apply andb_prop in F as [F F3]. apply andb_prop in F as [F1 F2]. split; [|split].
      + erewrite loop_cons.
        2: { rewrite (step _ u _ _ _ _ _ _ _ _ Wu (proj1 Rd)); try discriminate. unfold dispatch. rewrite (proj1 Wu). cbn [fst]. unfold parse_inline_image_macro.
             pose proof (word_text _ _ Wu) as X. cbn [fst snd] in X. rewrite (image_token w u target alt X (proj1 Wu)); auto; [reflexivity|].
             destruct target; [exact I|]. cbn. now apply negb_true_iff. }
        rewrite (proj1 Wu). reflexivity.
      + intros _. split; reflexivity.
      + cbn [write fst snd map unplaced_inline]. rewrite alt_meta_unplaced. split; [reflexivity|]. split; [exact P|]. split; [reflexivity|]. split; [|intros K X; left; now apply Wt].
        intros _. exact (proj1 (proj2 (fine_top _ _ _ _ _ Fn)) RImage _ _ _ eq_refl).
    - (* a footnote *)
      replace (force || styled [Note l]) with force by (cbn; now rewrite orb_false_r).
      replace (close || macros [Note l]) with true by (cbn; now rewrite orb_true_r).
      apply words_cons in W as (u & ts' & -> & Wu & W). apply words_split in W as (u1 & u2 & -> & Wb & Wc).
      apply words_cons in Wc as (tc & u3 & -> & Wc & Wn). inversion Wn. subst u3.
      apply ready_cons in Rd as [Ra Rb]. apply ready_app in Rb as [Rb Rc].
      cbn [calm_in] in Cm. apply andb_prop in Cm as [_ Cm]. apply calm_in_app in Cm as [Cm _]. cbn [not_newline fst negb] in Cm.
      cbn [el_ok] in F. apply andb_prop in F as [F1 F2]. apply negb_true_iff in F1.
      assert (keeps_breaks keep && wait = false) as Kw.
      { destruct (keeps_breaks keep) eqn:K, wait eqn:X; try reflexivity. rewrite Wt in F1; auto. }
      assert (token_into w fuel u (C lst ist me None il false force close dang)
        = Ok (C lst (new_span SFootnote FConstrained (token_locations u) :: ist) me None il true force close dang)) as E1.
      { rewrite (step _ u _ _ _ _ _ _ _ _ Wu (proj1 Ra)); try discriminate. unfold dispatch. rewrite (proj1 Wu). cbn [fst].
        unfold parse_footnote_macro, span_from_token. rewrite (proj1 Wu). reflexivity. }
      destruct (inners_in l SFootnote FConstrained None false) with
        (ts := u1) (b := false) (lst := TFootnoteMacro) (i := new_span SFootnote FConstrained (token_locations u)) (ist := ist) (me := me) (il := il) (force := force) (close := close)
        (dang := dang) (wait := wait) (rk := @nil inline) (last := @None tick) as (l2 & i2 & il2 & d2 & E2 & _ & B3 & Q3 & P3 & K3); auto; try discriminate.
      { intros _. split; reflexivity. }
      { exact I. }
      { exact I. }
      assert (exists i3, token_into w fuel tc (C l2 (i2 :: ist) me None il2 true force close d2) = Ok (C l2 (i3 :: ist) me None il2 false force true d2)
        /\ unplaced_inline i3 = unplaced_inline i2) as (i3 & E3 & B4).
      { rewrite (step _ tc _ _ _ _ _ _ _ _ Wc (proj1 Rc)); try discriminate. unfold dispatch. rewrite (proj1 Wc). cbn [fst macro_close].
        unfold parse_inline_macro_close. cbn [p_open_type C p_istack]. unfold ctx1 in B3. destruct i2 as [v f kk m loc o| | |]; try discriminate.
        pose proof B3 as B5. cbn in B5. injection B5 as -> -> _ _ _. cbn. eexists. split; reflexivity. }
      exists TInlineMacroClose, (i3 :: ist), me, il2, d2. split; [|split].
      + rewrite (loop_cons _ _ _ _ E1), (proj1 Wu). rewrite (loop_app _ _ _ _ _ _ E2), (loop_cons _ _ _ _ E3), (proj1 Wc). reflexivity.
      + intros _. split; reflexivity.
      + cbn [write fst snd]. rewrite fold_draft. cbn [fst snd map]. rewrite B4, B3. split; [reflexivity|]. split; [exact P3|]. split; [reflexivity|]. split.
        * intros _. unfold fine. cbn. repeat split; try discriminate.
        * intros K X. rewrite X, andb_true_r, K in K3. discriminate.
    - (* passed text *)
      replace (force || styled [Passed ws]) with force by (cbn; now rewrite orb_false_r).
      replace (close || macros [Passed ws]) with close by (cbn; now rewrite orb_false_r).
      apply words_cons in W as (u & ts' & -> & Wu & W). apply words_split in W as (u1 & u2 & -> & Wb & Wc).
      apply words_cons in Wc as (tc & u3 & -> & Wc & Wn). inversion Wn. subst u3.
      assert (hd = None) as Hd by (apply (header_none _ _ Rd); reflexivity).
      apply ready_cons in Rd as [Ra Rb].
      assert (token_into w fuel u (C lst ist me None il false force close dang)
        = Ok (C lst ist me (Some TPassthroughInlineMacro) il false force close dang)) as E1.
      { rewrite (step _ u _ _ _ _ _ _ _ _ Wu (proj1 Ra)); try discriminate. unfold dispatch. rewrite (proj1 Wu). reflexivity. }
      destruct (pass_words ws Hd u1 TPassthroughInlineMacro ist me il force close dang wait Wb F (proj2 (proj2 (proj2 Fn))) P) as (l2 & i2 & d2 & E2 & B2 & P2).
      assert (token_into w fuel tc (C l2 i2 me (Some TPassthroughInlineMacro) il false force close d2) = Ok (C l2 i2 me None il false force close d2)) as E3.
      { unfold C. rewrite Hd. destruct fuel; cbn [token_into p_header bind]; unfold pre_dispatch; cbn [p_open_type]; rewrite (proj1 Wc); cbn;
          unfold dispatch; rewrite (proj1 Wc); reflexivity. }
      exists TInlineMacroClose, i2, me, il, d2. split; [|split].
      + rewrite (loop_cons _ _ _ _ E1), (proj1 Wu). rewrite (loop_app _ _ _ _ _ _ E2), (loop_cons _ _ _ _ E3), (proj1 Wc). reflexivity.
      + intros _. split; reflexivity.
      + cbn [write fst snd]. split; [exact B2|]. split; [exact P2|]. split; [reflexivity|]. split.
        * intros _. pose proof (fine_fold _ _ _ ws _ _ wait Fn) as H. destruct ws; exact H.
        * intros K X. left. destruct ws as [|x ws]; [cbn in X |- *; auto|]. exfalso. cbn [fold_left] in X. unfold put at 2 in X.
          revert X. generalize (if snd (map unplaced_inline ist, wait) then if keeps_breaks keep then said (snd x) :: said ["010"] :: fst (map unplaced_inline ist, wait) else weld false (weld false (fst (map unplaced_inline ist, wait)) (said ["010"])) (said (snd x)) else weld false (fst (map unplaced_inline ist, wait)) (said (snd x))).
          clear. induction ws as [|y ws IH]; intros k; [discriminate|]. cbn [fold_left]. unfold put at 2. apply IH.
    - (* a comment line *)
      replace (force || styled [Remark s]) with force by (cbn; now rewrite orb_false_r).
      replace (close || macros [Remark s]) with close by (cbn; now rewrite orb_false_r).
      apply words_cons in W as (u & ts' & -> & Wu & Wn). inversion Wn. subst ts'.
      exists TComment, ist, me, il, dang. split; [|split].
      + erewrite loop_cons.
        2: { rewrite (step _ u _ _ _ _ _ _ _ _ Wu (proj1 Rd)); try discriminate. unfold dispatch. rewrite (proj1 Wu). reflexivity. }
        rewrite (proj1 Wu). reflexivity.
      + intros _. split; reflexivity.
      + cbn [write fst snd]. split; [reflexivity|]. split; [exact P|]. split; [reflexivity|]. split; [intros _; exact Fn|intros K X; left; now apply Wt].
    - (* an address *)
      replace (force || styled [Url s]) with force by (cbn; now rewrite orb_false_r).
      replace (close || macros [Url s]) with close by (cbn; now rewrite orb_false_r).
      apply words_cons in W as (u & ts' & -> & Wu & Wn). inversion Wn. subst ts'.
      exists THyperlink, (IRef RLink s [] None (token_locations u) :: ist), me, il, dang. split; [|split].
      + erewrite loop_cons.
        2: { rewrite (step _ u _ _ _ _ _ _ _ _ Wu (proj1 Rd)); try discriminate. unfold dispatch. rewrite (proj1 Wu). cbn [fst]. unfold new_link.
             pose proof (word_text _ _ Wu) as X. cbn [fst snd] in X. rewrite X. reflexivity. }
        rewrite (proj1 Wu). reflexivity.
      + intros _. split; reflexivity.
      + cbn [write fst snd map unplaced_inline]. split; [reflexivity|]. split; [exact P|]. split; [reflexivity|]. split; [discriminate|intros K X; now right].
  Qed.

  Lemma elements_step l : forall ts b lst ist me il force close dang wait waits after noted linked,
    are_words (text_words l) ts -> ready (text_words l) -> calm_in b (text_words l) = true -> paced b lst ->
    fits keep waits after noted linked l = true -> fine after noted linked close (map unplaced_inline ist) -> pending wait dang ->
    (keeps_breaks keep = true -> wait = true -> waits = true) ->
    exists lst' ist' me' il' dang',
      parse_loop w fuel ts (C lst ist me None il false force close dang)
        = Ok (C lst' ist' me' None il' false (force || styled l) (close || macros l) dang')
      /\ paced (after_words b (text_words l)) lst'
      /\ let s := fold_left (write keep e) l (map unplaced_inline ist, wait, option_map unplaced_meta me) in
         map unplaced_inline ist' = fst (fst s) /\ pending (snd (fst s)) dang' /\ option_map unplaced_meta me' = snd s.
  Proof.
    induction l as [|x l IH]; intros ts b lst ist me il force close dang wait waits after noted linked W Rd Cm Pc F Fn P Wt.
    - inversion W. subst. exists lst, ist, me, il, dang. cbn. rewrite !orb_false_r. auto 8.
    - unfold text_words in *. cbn [map List.concat] in *. apply words_split in W as (t1 & t2 & -> & W1 & W2). apply ready_app in Rd as [R1 R2].
      apply calm_in_app in Cm as [C1 C2]. apply fits_cons in F as [F1 F2].
      destruct (element_step x t1 b lst ist me il force close dang wait waits after noted linked W1 R1 C1 Pc F1 Fn P Wt)
        as (l1 & i1 & m1 & il1 & d1 & E1 & Pc1 & B1 & P1 & M1 & Fn1 & Wt1).
      replace (force || styled (x :: l)) with ((force || styled [x]) || styled l) by (cbn [styled existsb]; rewrite orb_false_r; now rewrite orb_assoc).
      replace (close || macros (x :: l)) with ((close || macros [x]) || macros l) by (cbn [macros existsb]; rewrite orb_false_r; now rewrite orb_assoc).
      cbn [fold_left]. destruct (write keep e (map unplaced_inline ist, wait, option_map unplaced_meta me) x) as [[k1 w1] me1]. cbn [fst snd] in *.
      rewrite after_words_app. destruct F2 as [[_ ->]|[Hu F2]].
      + inversion W2. subst t2. rewrite app_nil_r. exists l1, i1, m1, il1, d1. cbn [styled macros existsb fold_left]. rewrite !orb_false_r. split; [|auto].
        rewrite E1. cbn [styled macros existsb]. now rewrite !orb_false_r.
      + rewrite <- B1 in Fn1.
        destruct (IH t2 (after_words b (element_words x)) l1 i1 m1 il1 (force || styled [x]) (close || macros [x]) d1 w1 _ _ _ _ W2 R2 C2 Pc1 F2 (Fn1 Hu) P1)
          as (l2 & i2 & m2 & il2 & d2 & E2 & Pc2 & R).
        { intros K X. destruct (Wt1 K X); [assumption|congruence]. }
        rewrite B1, M1 in R. exists l2, i2, m2, il2, d2. split; [now apply (loop_join _ _ _ _ _ E1)|]. split; [exact Pc2|exact R].
  Qed.
  Lemma weld_some any st x : weld any st x <> [].
  Proof. destruct st as [|[| |[] k s l|] st]; try discriminate; destruct x as [| |[] xk xs xl|]; cbn; try discriminate; destruct any; discriminate. Qed.
  Lemma put_some any d x : fst (put keep any d x) <> [].
  Proof. unfold put. cbn. destruct (snd d); [destruct (keeps_breaks keep); [discriminate|]|]; apply weld_some. Qed.
  Lemma put_words_some (ws : list word) : forall d, fst d <> [] \/ ws <> [] -> fst (fold_left (fun d x => put keep false d (said (snd x))) ws d) <> [].
  Proof. induction ws as [|x ws IH]; intros d H; [destruct H; [assumption|congruence]|]. cbn. apply IH. left. apply put_some. Qed.
  Lemma write_some s x : fst (fst s) <> [] \/ speaks [x] = true -> fst (fst (write keep e s x)) <> [].
  Proof.
    destruct s as [[k wait] me]. cbn [fst]. intros H. destruct x as [[]| | | | | | |ws| |]; cbn [write write_bit fst snd];
      try apply put_some; try apply weld_some; try rewrite fold_draft; cbn [fst snd]; try discriminate; try (destruct H; [assumption|discriminate]).
    apply put_words_some. destruct H as [H|H]; [now left|right]. destruct ws; discriminate.
  Qed.
  Lemma speaks_some l : forall s, fst (fst s) <> [] \/ speaks l = true -> fst (fst (fold_left (write keep e) l s)) <> [].
  Proof.
    induction l as [|x l IH]; intros s H; cbn [fold_left].
    - destruct H; [assumption|discriminate].
    - apply IH. cbn [speaks existsb] in H. destruct H as [H|H]; [left; apply write_some; now left|].
      apply orb_prop in H as [H|H]; [left; apply write_some; right; cbn; now rewrite orb_false_r|now right].
  Qed.
  Lemma calm_last b ws : calm b ws = true -> ws <> [] -> after_words b ws = false.
  Proof.
    revert b. induction ws as [|x ws IH]; [congruence|]. intros b H _. cbn [after_words fold_left calm] in *. fold (after_words (negb (not_newline x)) ws).
    destruct ws as [|y ws].
    - cbn. unfold not_newline. cbn in H. destruct (fst x); try reflexivity. now rewrite andb_false_r in H.
    - apply IH; [|discriminate]. unfold not_newline. destruct (fst x); try exact H. now apply andb_prop in H.
  Qed.
  (** a whole text *)
  Lemma text_step l ts lst me il force close dang wait : are_words (text_words l) ts -> ready (text_words l) -> text_fits keep wait l = true -> pending wait dang ->
    exists lst' ist' me' il' dang',
      parse_loop w fuel ts (C lst [] me None il false force close dang)
        = Ok (C lst' ist' me' None il' false (force || styled l) (close || macros l) dang')
      /\ steady lst' /\ rev (map unplaced_inline ist') = text_inlines keep e (option_map unplaced_meta me) wait l
      /\ option_map unplaced_meta me' = text_rest keep e (option_map unplaced_meta me) wait l /\ ist' <> []
      /\ pending (snd (fst (text_draft keep e (option_map unplaced_meta me) wait l))) dang' /\ ts <> [].
  Proof.
    intros W Rd F Pd. unfold text_fits in F. apply andb_prop in F as [F F3]. apply andb_prop in F as [F1 F2].
    destruct (elements_step l ts true lst [] me il force close dang wait wait false false false W Rd) as (l1 & i1 & m1 & il1 & d1 & E1 & Pc & B1 & P1 & M1); auto.
    { pose proof (calm_front true (text_words l) []) as H. rewrite app_nil_r in H. now apply H. }
    { discriminate. }
    { unfold fine, no_macro. cbn. auto. }
    assert (text_words l <> []) as N by (intros X; rewrite X in F2; discriminate).
    exists l1, i1, m1, il1, d1. split; [exact E1|]. rewrite (calm_last _ _ F2 N) in Pc. split; [now apply Pc|].
    split; [unfold text_inlines, text_draft; now rewrite B1|]. split; [exact M1|]. split.
    - intros ->. pose proof (speaks_some l ([], wait, option_map unplaced_meta me) (or_intror F3)) as H. cbn in B1. now rewrite <- B1 in H.
    - split; [exact P1|]. intros ->. inversion W. congruence.
  Qed.
  Lemma rest_none e' keep' wait l : text_rest keep' e' None wait l = None.
  Proof.
    unfold text_rest, text_draft. assert (forall s, snd s = None -> snd (fold_left (write keep' e') l s) = None) as H.
    { clear. induction l as [|x l IH]; intros s H; [exact H|]. cbn [fold_left]. apply IH. destruct s as [[k wait] me]. cbn in H. subst me.
      destruct x; cbn [write fst snd]; try rewrite fold_draft; reflexivity. }
    now apply H.
  Qed.
End Text.
