(** * Properties of every parsed graph: instances of the invariant *)
From Verif Require Import Base World Location Token Scanner Meta Inline Block Asg Parser SpecScan SpecLoc LocProofs
  SpecStart ScanStart SpecGraph SpecInclude GraphLemmas Inv.
Local Open Scope char_scope.
Local Open Scope nat_scope.

Section Read.
  Variable PL PE : list location -> Prop.
  Variable SK : skel -> Prop.
  Lemma inline_within_DI i j : inline_within i j -> DI PL PE j -> DI PL PE i.
  Proof.
    induction 1 as [i | i v f l m loc o c Hc _ IH | i v t l m loc c Hc _ IH]; intros H; auto; apply IH;
    inversion H as [? ? ? ? ? ? ? ? ? Hl | ? ? ? ? ? ? ? Hl | |]; subst; rewrite Forall_forall in Hl; auto.
  Qed.
  Lemma within_DB b x : within b x -> DB PL PE x -> DB PL PE b.
  Proof.
    induction 1 as [b | b h m k loc c Hc _ IH]; intros H; auto. apply IH.
    inversion H as [? ? ? ? _ _ Hk _]. subst. rewrite Forall_forall in Hk. auto.
  Qed.
  Variable a : asg.
  Hypothesis HA : AI PL PE SK a.
  Lemma block_of_DB b : block_of a b -> DB PL PE b.
  Proof.
    intros (x & Hx & Hw). destruct HA as (HB & _). rewrite Forall_forall in HB.
    destruct (HB x Hx) as [D _]. eapply within_DB; eassumption.
  Qed.
  Lemma own_inlines_head b : own_inlines b = head_inlines (b_head b).
  Proof. now destruct b as [[]]. Qed.
  Lemma inline_of_DI i : inline_of a i -> DI PL PE i.
  Proof.
    intros [h t Hh Ht Hw | b t Hb Ht Hw]; eapply inline_within_DI; try exact Hw.
    - destruct HA as (_ & _ & H & _). rewrite Hh in H. destruct H as [H _]. rewrite Forall_forall in H. auto.
    - apply block_of_DB in Hb. rewrite own_inlines_head in Ht. destruct Hb as [h m k loc H _ _ _].
      rewrite Forall_forall in H. auto.
  Qed.
  Lemma metadata_of_DM m : metadata_of a m -> DM PL m.
  Proof.
    intros [b Hb E | v f l loc o Hi | v t l loc Hi].
    - apply block_of_DB in Hb. destruct Hb as [h mm k loc _ H _ _]. cbn in E. subst mm. exact H.
    - apply inline_of_DI in Hi. now inversion Hi.
    - apply inline_of_DI in Hi. now inversion Hi.
  Qed.
  Lemma location_of_PL l : location_of a l -> PL l.
  Proof.
    intros [|h Hh | b Hb | i Hi | m Hm].
    - apply HA.
    - destruct HA as (_ & _ & H & _). rewrite Hh in H. apply H.
    - apply block_of_DB in Hb. now destruct Hb.
    - apply inline_of_DI in Hi. now destruct Hi.
    - apply metadata_of_DM in Hm. apply Hm.
  Qed.
  (** shapes *)
  Lemma skel_in c k : In c k -> In (skel_of c) (map skel_of k).
  Proof. apply in_map. Qed.
  Hypothesis SK_kids : forall s k, SK (Node s k) -> Forall SK k.
  Lemma block_of_SK b : block_of a b -> SK (skel_of b).
  Proof.
    intros (x & Hx & Hw). destruct HA as (HB & _). rewrite Forall_forall in HB.
    destruct (HB x Hx) as [_ K]. clear Hx HB. induction Hw as [b | b h m k loc c Hc Hw IH]; [exact K|].
    apply IH. cbn in K. apply SK_kids in K. rewrite Forall_forall in K. apply K, skel_in, Hc.
  Qed.
End Read.

(** ** Shapes: C14, C18 *)
Inductive good : skel -> Prop :=
| good_node s k :
    Forall good k ->
    (forall l, s = KSection l -> 1 <= l <= 4 /\ Forall (fun c => forall l', root c = KSection l' -> l < l') k) ->
    (forall v, s = KParent PTable v -> Forall (fun c => root c = KCell) k) ->
    good (Node s k).
Lemma good_kids s k : good (Node s k) -> Forall good k.
Proof. now inversion 1. Qed.
Lemma good_fresh s : match s with KSection l => 1 <= l <= 4 | _ => True end -> good (Node s []).
Proof.
  intros H. constructor; [constructor | | constructor]. intros l ->. split; [exact H | constructor].
Qed.
Lemma grows_root a n a' : grows a n a' -> root a' = root a.
Proof. destruct 1; reflexivity. Qed.
Lemma section_level_some s l : section_level s = Some l -> s = KSection l.
Proof. destruct s; cbn; intros [= ->]; reflexivity. Qed.
Lemma good_grow a n a' : good a -> good n ->
  (forall l l', section_level (root a) = Some l -> section_level (root n) = Some l' -> l < l') ->
  grows a n a' -> good a'.
Proof.
  intros Ha Hn Hc G. revert Ha Hc. induction G as [l k x n x' Hs Had G IH | l k n Hs | s k n Hs
    | pn pv k x n x' mk v Hr Hx G IH | pn pv k n Hl Ht]; intros Ha Hc.
  - inversion Ha as [? ? Hk Hsec Htab]. subst. apply Forall_app in Hk as [Hk Hx]. apply Forall_inv in Hx.
    pose proof (grows_root _ _ _ G) as Er.
    assert (good x') as Hx'.
    { apply IH; auto. intros l1 l2 E1 E2. apply section_level_some in E1, E2. rewrite E1, E2 in Had. exact Had. }
    constructor; [apply Forall_app; auto | | discriminate].
    intros l0 [= <-]. destruct (Hsec l eq_refl) as [H1 H2]. split; [exact H1|].
    apply Forall_app in H2 as [H2 H3]. apply Forall_app. split; [exact H2|]. constructor; [|constructor].
    apply Forall_inv in H3. now rewrite Er.
  - inversion Ha as [? ? Hk Hsec Htab]. subst. constructor; [apply Forall_app; auto | | discriminate].
    intros l0 [= <-]. destruct (Hsec l eq_refl) as [H1 H2]. split; [exact H1|].
    apply Forall_app. split; [exact H2|]. constructor; [|constructor].
    intros l' E. apply Hc; [reflexivity|]. now rewrite E.
  - inversion Ha as [? ? Hk Hsec Htab]. subst. constructor; [apply Forall_app; auto | |];
    intros; subst s; destruct Hs as [[? ?]|[?|[[? ?]|?]]]; discriminate.
  - inversion Ha as [? ? Hk Hsec Htab]. subst. apply Forall_app in Hk as [Hk Hx0]. apply Forall_inv in Hx0.
    assert (good x') as Hx'.
    { apply IH; auto. rewrite Hx. discriminate. }
    constructor; [apply Forall_app; auto | discriminate|].
    intros v0 [= -> ->]. specialize (Htab _ eq_refl). apply Forall_app in Htab as [_ Htab]. apply Forall_inv in Htab. congruence.
  - inversion Ha as [? ? Hk Hsec Htab]. subst. constructor; [apply Forall_app; auto | discriminate|].
    intros v0 [= -> ->]. apply Forall_app. split; [eapply Htab; reflexivity|]. repeat constructor. auto.
Qed.

Lemma Forall_T {A} (P : A -> Prop) l : (forall x, P x) -> Forall P l.
Proof. intros H. apply Forall_forall. auto. Qed.
Theorem parse_shape w fuel origin resolve src a :
  parse w fuel origin resolve src = Ok a -> AI (fun _ => True) (fun _ => True) good a.
Proof.
  intros H. refine (parse_ok w origin (fun _ => True) (fun _ => True) (fun _ => True) (fun _ => True)
    (fun _ _ => True) (fun _ => True) good _ _ _ _ _ _ _ _ _ _ _ _ _ fuel resolve src _ _ a H);
  auto using good_fresh; intros;
  try (destruct (destructure_inline_locations _) as [[? ?] ?]; exact I);
  try (apply Forall_T; auto).
  - intros p' _. apply Forall_T; auto.
  - split; [exact I | apply Forall_T; auto].
  - eapply (good_grow a0 n); eassumption.
Qed.

Lemma sections_nest w fuel origin resolve src a :
  parse w fuel origin resolve src = Ok a ->
  forall id title l m k loc, block_of a (Blk (HSection id title l) m k loc) ->
  1 <= l <= 4 /\
  forall id' title' l' m' k' loc', In (Blk (HSection id' title' l') m' k' loc') k -> l < l'.
Proof.
  intros H id title l m k loc Hb. apply parse_shape in H.
  apply (block_of_SK _ _ _ _ H good_kids) in Hb. inversion Hb as [? ? Hk Hsec Htab]. subst.
  destruct (Hsec l eq_refl) as [H1 H2]. split; [exact H1|]. intros id' title' l' m' k' loc' Hin.
  rewrite Forall_forall in H2. apply skel_in in Hin. apply (H2 _ Hin). reflexivity.
Qed.
Lemma tables_cells w fuel origin resolve src a :
  parse w fuel origin resolve src = Ok a ->
  forall v d title m k loc, block_of a (Blk (HParent PTable v d title) m k loc) ->
  Forall (fun c => exists l, b_head c = HCell l) k.
Proof.
  intros H v d title m k loc Hb. apply parse_shape in H.
  apply (block_of_SK _ _ _ _ H good_kids) in Hb. inversion Hb as [? ? Hk Hsec Htab]. subst.
  specialize (Htab v eq_refl). rewrite Forall_forall in *. intros c Hc. apply skel_in in Hc.
  apply Htab in Hc. destruct c as [[]]; try discriminate. eexists. reflexivity.
Qed.
Lemma attrs_nodup w fuel origin resolve src a :
  parse w fuel origin resolve src = Ok a -> forall m, metadata_of a m -> NoDup (map fst (m_attrs m)).
Proof. intros H m Hm. apply parse_shape in H. apply (metadata_of_DM _ _ _ _ H) in Hm. apply Hm. Qed.

Lemma document_attrs_nodup w fuel origin resolve src a :
  parse w fuel origin resolve src = Ok a -> forall l, a_attrs a = Some l -> NoDup (map fst l).
Proof. intros H l E. apply parse_shape in H as (_ & _ & _ & H & _). now rewrite E in H. Qed.

(** ** Locations: C20 *)
Lemma span_two_at_most l s : span_of l s -> List.length s <= 2.
Proof. destruct 1; cbn; lia. Qed.
Lemma reconcile_two a b : List.length a <= 2 -> List.length (reconcile a b) <= 2.
Proof.
  intros H. destruct b as [|x b]; [exact H|]. eapply span_two_at_most, reconcile_span. discriminate.
Qed.
Theorem parse_two w fuel origin resolve src a :
  parse w fuel origin resolve src = Ok a -> AI (fun l => List.length l <= 2) (fun _ => True) (fun _ => True) a.
Proof.
  intros H. refine (parse_ok w origin (fun l => List.length l <= 2) (fun _ => True) (fun _ => True) (fun _ => True)
    (fun _ _ => True) (fun _ => True) (fun _ => True) _ _ _ _ _ _ _ _ _ _ _ _ _ fuel resolve src _ _ a H);
  intros; cbn; auto using reconcile_two;
  try (destruct (destructure_inline_locations _) as [[? ?] ?]; cbn; lia);
  try (apply Forall_T; auto).
  - intros p' _. apply Forall_T; auto.
  - split; [exact I | apply Forall_T; auto].
Qed.
Lemma locations_two w fuel origin resolve src a :
  parse w fuel origin resolve src = Ok a -> forall l, location_of a l -> List.length l <= 2.
Proof. intros H l Hl. apply parse_two in H. exact (location_of_PL _ _ _ _ H l Hl). Qed.

Lemma reconcile_ordered a b : ordered_span a -> ordered_span (reconcile a b).
Proof.
  intros H. destruct b as [|x b]; [exact H|].
  assert (span_of (a ++ x :: b) (reconcile a (x :: b))) as S by (apply reconcile_span; discriminate).
  destruct S as [y E | y z Hn Hy Hz Hf]; cbn; auto. rewrite Forall_forall in Hf. now apply Hf.
Qed.
Definition one_line_span (l : list location) : Prop :=
  let '(_, sc, ec) := destructure_inline_locations l in sc <= ec.

(** texts without attribute references *)
Definition no_ref (s : bytes) : Prop := ~ occurs (bs "{") s.
Definition no_ref_token (t : token) : Prop :=
  startcol t <= endcol t /\ ttype t <> TAttributeReference /\ (ttype t = TTableCell -> no_ref (token_text t)).
Lemma stream_no_ref src files : no_ref src -> Forall no_ref_token (fst (scan_stream src files)).
Proof.
  intros Hn. apply Forall_forall. intros t Hin. split; [eapply stream_no_eof_cols; eassumption|]. split.
  - intros E. apply Hn. destruct (stream_openers _ _ _ [bs "{"] Hin) as (p & [<-|[]] & Ho); [now rewrite E | exact Ho].
  - intros E Ho. apply Hn. rewrite (stream_text _ _ _ Hin) in Ho.
    + eapply occurs_trans; [exact Ho | eapply stream_lexeme; eassumption].
    + rewrite E. discriminate.
    + rewrite E. cbn. intuition discriminate.
Qed.
Lemma token_ordered t : startcol t <= endcol t -> ordered_span (token_locations t).
Proof. intros H. cbn. unfold not_after, depth. cbn. lia. Qed.
Theorem parse_ordered w fuel origin resolve src a :
  no_ref src -> (forall path content, w_read w path = Some content -> no_ref content) ->
  parse w fuel origin resolve src = Ok a -> AI ordered_span one_line_span (fun _ => True) a.
Proof.
  intros Hs Hw H. refine (parse_ok w origin ordered_span one_line_span no_ref_token (fun _ => True)
    (fun _ _ => True) (fun _ => True) (fun _ => True) _ _ _ _ _ _ _ _ _ _ _ _ _ fuel resolve src _ _ a H); auto.
  - exact I.
  - exact I.
  - intros. now apply reconcile_ordered.
  - intros t (Ht & _). now apply token_ordered.
  - intros; exact I.
  - intros t (Ht & _). exact Ht.
  - intros l fs Hl _. unfold one_line_span in Hl. destruct (destructure_inline_locations l) as [[? ?] ?].
    cbn. unfold not_after, depth. cbn. lia.
  - intros t v (_ & Ht & _) E. contradiction.
  - intros. intros p' _. apply Forall_T; auto.
  - intros fs t target m path content _ Ht _ _ _ _ Hr. split; [exact I|].
    eapply Forall_impl; [|eapply stream_no_ref, Hw, Hr]. auto.
  - intros fs t contents _ (_ & _ & Ht) _ E Hc. specialize (Ht E).
    assert (no_ref contents) as Hn.
    { intros Ho. apply Ht. eapply occurs_trans; [exact Ho|]. eapply slice_occurs, Hc. }
    eapply Forall_impl; [|apply (stream_no_ref contents []), Hn]. intros x (H1 & H2 & H3).
    split; [|exact I]. split; [cbn; lia|]. split; assumption.
  - eapply Forall_impl; [|apply stream_no_ref, Hs]. auto.
Qed.
Lemma locations_ordered w fuel origin resolve src a :
  no_ref src -> (forall path content, w_read w path = Some content -> no_ref content) ->
  parse w fuel origin resolve src = Ok a -> forall l, location_of a l -> ordered_span l.
Proof. intros Hs Hw H l Hl. eapply parse_ordered in H; eauto. exact (location_of_PL _ _ _ _ H l Hl). Qed.

(** ** Chains of included files: C25 *)
Section Chains.
  Variable w : world.
  Variable origin src : bytes.
  Definition chain_ok (c : list bytes) : Prop := exists content, opens w origin src c content.
  Lemma reconcile_in a b x : In x (reconcile a b) -> In x (a ++ b).
  Proof.
    destruct b as [|y b]; [intros H; apply in_or_app; now left|].
    apply span_in. apply reconcile_span. discriminate.
  Qed.
  Definition chains (l : list location) : Prop := Forall (fun x => chain_ok (loc_file x)) l.
  Lemma main_ok : chain_ok [].
  Proof. exists src. constructor. Qed.
  Lemma chain_parse_with fuel resolve a p :
    parse_with w fuel (scan_stream src []) (new_parser origin resolve) = Ok (a, p) ->
    AI chains (fun _ => True) (fun _ => True) a /\ p_files p = [].
  Proof.
    intros H. refine (parse_with_ok w origin chains (fun _ => True) (fun t => chain_ok (tfiles t)) chain_ok
      (fun fs t => reads w origin src fs t) (fun _ => True) (fun _ => True)
      _ _ _ _ _ _ _ _ _ _ _ _ fuel (scan_stream src []) (new_parser origin resolve) _ _ (a, p) H); auto.
    - constructor.
    - intros a0 b Ha Hb. apply Forall_forall. intros x Hx. apply reconcile_in in Hx.
      assert (chains (a0 ++ b)) as K by (apply Forall_app; auto). unfold chains in K. rewrite Forall_forall in K. auto.
    - intros t Ht. repeat constructor; exact Ht.
    - intros t Ht. repeat constructor; exact Ht.
    - intros l fs _ Hf. destruct (destructure_inline_locations l) as [[? ?] ?]. repeat constructor; exact Hf.
    - intros t v Ht _ _. repeat constructor; exact Ht.
    - intros. intros p' _. apply Forall_T; auto.
    - intros fs t target m path content _ _ Hr Ety Etg Ep Er.
      assert (opens w origin src (fs ++ [target]) content) as O by (eapply opens_include; eassumption).
      split; [now exists content|]. apply Forall_forall. intros x Hx.
      destruct (stream_tokens _ _ _ Hx) as [E _]. split; [rewrite E; now exists content|].
      eapply reads_scan; eassumption.
    - intros fs t contents _ _ Hr Ety Ec. apply Forall_forall. intros x Hx.
      destruct (stream_tokens _ _ _ Hx) as [E _]. split; [cbn; rewrite E; exact main_ok|].
      eapply reads_cell; eassumption.
    - apply Forall_forall. intros x Hx. destruct (stream_tokens _ _ _ Hx) as [E _].
      split; [rewrite E; exact main_ok|]. eapply reads_scan; [constructor | exact Hx].
    - split; [|exact I]. split; [constructor; cbn; auto; try exact I; try exact main_ok | repeat split].
      + split; constructor.
      + repeat split; cbn; auto; repeat constructor; exact main_ok.
  Qed.
End Chains.
Lemma chains_followed w fuel origin resolve src a :
  parse w fuel origin resolve src = Ok a ->
  forall l x, location_of a l -> In x l -> exists content, opens w origin src (loc_file x) content.
Proof.
  intros H l x Hl Hx. unfold parse in H. destruct (parse_with _ _ _ _) as [[a' p]| | | |] eqn:E; try discriminate.
  injection H as ->. apply chain_parse_with in E as [E _]. pose proof (location_of_PL _ _ _ _ E l Hl) as K.
  unfold chains in K. rewrite Forall_forall in K. exact (K x Hx).
Qed.
Lemma chain_restored w fuel origin resolve src a p :
  parse_with w fuel (scan_stream src []) (new_parser origin resolve) = Ok (a, p) -> p_files p = [].
Proof. intros H. now apply chain_parse_with in H. Qed.

(** ** Nothing stays open: C39 *)
Lemma push_stack_istack b p p' : push_block_to_stack b p = Ok p' -> p_istack p' = p_istack p.
Proof.
  unfold push_block_to_stack. destruct (_ && _).
  - destruct (p_bstack p); [discriminate|]. destruct (push_block _ _); try discriminate. now intros [= <-].
  - destruct (p_meta p); [destruct (add_metadata _ _); try discriminate|]; now intros [= <-].
Qed.
Lemma new_paragraph_istack p p' : new_paragraph p = Ok p' -> p_istack p' = [].
Proof.
  unfold new_paragraph. intros H. destruct (push_inlines _ _) as [para| | | |]; try discriminate. cbn [bind] in H.
  cbn [set_istack p_in_cont p_open_lines p_bstack p_meta] in H. destruct (_ && _).
  - destruct (p_bstack p); [discriminate|]. destruct (push_block _ _); try discriminate. now injection H as <-.
  - destruct (p_meta p); [|apply push_stack_istack in H; exact H].
    destruct (match _ with [] => _ | _ => _ end); try discriminate. cbn [bind] in H.
    destruct (_ || _); [|apply push_stack_istack in H; exact H].
    destruct (push_block _ _); try discriminate. apply push_stack_istack in H. exact H.
Qed.
Lemma add_inlines_istack p p' : add_inlines_to_block_stack p = Ok p' -> p_istack p' = [].
Proof.
  unfold add_inlines_to_block_stack. destruct (p_istack p) eqn:E; [now intros [= <-]|]. intros H.
  destruct (if p_in_span p then _ else _) as [p1| | | |]; try discriminate. cbn [bind] in H.
  destruct (p_header p1); [now injection H as <-|].
  destruct (p_bstack p1); [now apply new_paragraph_istack in H|].
  destruct (_ && _); [|now apply new_paragraph_istack in H].
  destruct (push_inlines _ _); try discriminate. now injection H as <-.
Qed.
Lemma add_last_istack p p' : add_last_block_to_graph p = Ok p' -> p_istack p' = p_istack p.
Proof.
  unfold add_last_block_to_graph. destruct (p_bstack p) as [|b0 r]; [now intros [= <-]|]. intros H.
  unfold take_metadata in H. cbn [set_bstack p_meta] in H.
  assert (forall b q, p_istack q = p_istack p ->
    match r with
    | [] => p_asg_push b q
    | l :: r' => if takes_block l b then let* l' := push_block l b in Ok (set_bstack (l' :: r') q) else p_asg_push b q
    end = Ok p' -> p_istack p' = p_istack p) as K.
  { intros b q Eq K. assert (p_asg_push b q = Ok p' -> p_istack p' = p_istack p) as K1.
    { unfold p_asg_push. destruct (asg_push_block _ _); try discriminate. intros [= <-]. exact Eq. }
    destruct r; [auto|]. destruct (takes_block _ _); [|auto]. destruct (push_block _ _); try discriminate. injection K as <-. exact Eq. }
  destruct (p_meta p) as [m|]; cbn [bind] in H; [|eapply K, H; reflexivity].
  destruct (add_metadata b0 m) as [b| | | |]; try discriminate. cbn [bind] in H. eapply K, H. reflexivity.
Qed.
Lemma flush_istack f n : forall p p', flush_blocks f n p = Ok p' -> p_istack p' = p_istack p /\ List.length (p_bstack p') <= n.
Proof.
  induction f as [|f IH]; intros p p' H; cbn [flush_blocks] in H;
    destruct (_ <=? _) eqn:E; try discriminate;
    try (injection H as <-; split; [reflexivity | now apply Nat.leb_le]).
  destruct (add_last_block_to_graph p) as [p1| | | |] eqn:E1; try discriminate. cbn [bind] in H.
  apply IH in H as [H1 H2]. split; [|exact H2]. rewrite H1. eapply add_last_istack, E1.
Qed.
Lemma nothing_open w fuel s p a p' :
  parse_with w fuel s p = Ok (a, p') -> p_bstack p' = [] /\ p_istack p' = [].
Proof.
  unfold parse_with. intros H. destruct (parse_loop _ _ _ _) as [p1| | | |]; try discriminate. cbn [bind] in H.
  destruct (snd s); try discriminate. cbn [bind] in H.
  destruct (add_inlines_to_block_stack p1) as [p2| | | |] eqn:E2; try discriminate. cbn [bind] in H.
  destruct (flush_to 0 p2) as [p3| | | |] eqn:E3; try discriminate. cbn [bind] in H. injection H as _ <-.
  apply flush_istack in E3 as [E3 E4]. apply add_inlines_istack in E2. split; [|congruence].
  destruct (p_bstack p3); [reflexivity | cbn in E4; lia].
Qed.
