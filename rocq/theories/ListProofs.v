(** * Proof of the property of lists *)
From Verif Require Import Base World Location Token Scanner Meta Inline Block Asg Parser SpecScan SpecStart SpecGraph
  GraphLemmas ScanLemmas ScanFacts ScanMain ScanMain2 ScanStart DocGraph SpecLists.
Local Open Scope char_scope.
Local Open Scope nat_scope.
Local Arguments reconcile : simpl never.
Local Arguments token_locations : simpl never.
Local Arguments Nat.ltb : simpl never.
Local Arguments trim : simpl never.

Section Lists.
(** whether description lists occur *)
Variable dl : bool.

(** ** Shapes *)
Definition home (h c : shape) : Prop :=
  match c with
  | KListItem mk => exists v, h = KList v /\ marks_item v mk
  | KDListItem => h = KDList /\ dl = true
  | _ => match h with KList _ | KDList => False | _ => True end
  end.
Definition item (s : shape) : Prop := match s with KListItem _ | KDListItem => True | _ => False end.
Lemma item_dec s : {item s} + {~ item s}.
Proof. destruct s; cbn; auto. Qed.
Inductive WS : skel -> Prop :=
| WS_node s k : Forall (fun c => home s (root c)) k -> Forall WS k -> WS (Node s k).
Definition rt (b : block) : shape := root (skel_of b).
Definition WB (b : block) : Prop := WS (skel_of b).

Lemma WS_snoc s k x : WS (Node s k) -> home s (root x) -> WS x -> WS (Node s (k ++ [x])).
Proof.
  intros H. inversion H. subst. intros A B. constructor; apply Forall_app; split; auto.
Qed.
Lemma WS_upd s k x y : WS (Node s (k ++ [x])) -> root y = root x -> WS y -> WS (Node s (k ++ [y])).
Proof.
  intros H E Y. inversion H as [? ? A B]. subst. apply Forall_app in A as [A1 A2], B as [B1 B2].
  apply Forall_inv in A2. constructor; apply Forall_app; split; auto. constructor; [now rewrite E|constructor].
Qed.
Lemma WS_last s k x : WS (Node s (k ++ [x])) -> WS x.
Proof. intros H. inversion H as [? ? A B]. subst. apply Forall_app in B as [_ B2]. now apply Forall_inv in B2. Qed.
Lemma grows_root a n a' : grows a n a' -> root a' = root a.
Proof. intros H. destruct H; reflexivity. Qed.
Lemma grow_home a n a' : grows a n a' -> home (root a) (root n) -> WS a -> WS n -> WS a'.
Proof.
  intros G. induction G as [l k x n x' S A G IH | l k n S | s k n S | pn pv k x n x' mk v E1 E2 G IH | pn pv k n S1 S2]; intros H W N; cbn [root] in *.
  - eapply WS_upd; [exact W|now apply grows_root in G|]. apply IH; [|now apply WS_last in W|exact N].
    destruct (root n); try (now destruct S). destruct (root x); cbn in *; auto; try (destruct A; discriminate). discriminate.
  - now apply WS_snoc.
  - now apply WS_snoc.
  - rewrite E1 in H. destruct H as (v' & H & _). discriminate.
  - now apply WS_snoc.
Qed.
Lemma push_block_W b nb b' : push_block b nb = Ok b' -> home (rt b) (rt nb) -> WB b -> WB nb -> WB b' /\ rt b' = rt b.
Proof.
  intros P H W N. apply push_block_grows in P as [_ G]. split; [exact (grow_home _ _ _ G H W N)|now apply grows_root in G].
Qed.

(** ** The stack *)
Fixpoint lined (l : list block) : Prop :=
  match l with
  | [] => True
  | b :: r => (item (rt b) -> match r with x :: _ => home (rt x) (rt b) | [] => False end) /\ lined r
  end.
Definition GA (a : asg) : Prop := Forall (fun b => WB b /\ ~ item (rt b)) (a_blocks a).
Definition Good (p : pstate) : Prop :=
  p_in_cont p = false /\ lined (p_bstack p) /\ Forall WB (p_bstack p) /\ GA (p_asg p).
Definition keep (p q : pstate) : Prop := p_in_line q = p_in_line p /\ p_open_type q = p_open_type p.
Definition calm (p q : pstate) : Prop :=
  p_in_cont q = p_in_cont p /\ p_bstack q = p_bstack p /\ p_asg q = p_asg p /\ keep p q.
Lemma calm_refl p : calm p p.
Proof. repeat split. Qed.
Lemma calm_trans p q r : calm p q -> calm q r -> calm p r.
Proof. intros (A & B & C & D & E) (A' & B' & C' & D' & E'). repeat split; congruence. Qed.
Lemma keep_refl p : keep p p.
Proof. split; reflexivity. Qed.
Lemma keep_trans p q r : keep p q -> keep q r -> keep p r.
Proof. intros [A B] [C D]. split; congruence. Qed.
Lemma calm_good p q : calm p q -> Good p -> Good q.
Proof. intros (A & B & C & _) (H1 & H2 & H3 & H4). repeat split; rewrite ?A, ?B, ?C; assumption. Qed.

(** *** Functions that only touch inlines *)
Definition calms (p : pstate) (m : result pstate) : Prop := post m (calm p).
Lemma calms_bind p m k : calms p m -> (forall q, calms q (k q)) -> calms p (bind m k).
Proof. intros A B. eapply post_bind; [exact A|]. intros q Q r R. eapply calm_trans; [exact Q|]. now apply B. Qed.
Lemma calms_from p q m : calm p q -> calms q m -> calms p m.
Proof. intros S H r R. eapply calm_trans; [exact S|]. now apply H. Qed.
Lemma calms_val {A} p (m : result A) k : (forall x, calms p (k x)) -> calms p (bind m k).
Proof. intros H. apply post_any. intros x _. apply H. Qed.
Lemma calms_ok p q : calm p q -> calms p (Ok q).
Proof. apply post_ok. Qed.
Lemma calms_err p e : calms p (Err e).
Proof. apply post_err. Qed.
Lemma calms_panic p : calms p Panic.
Proof. apply post_panic. Qed.
Create HintDb calm discriminated.
Ltac calm1 := first [apply calm_refl | assumption | repeat split; solve [reflexivity|assumption]].
Ltac cl :=
  repeat first
    [ apply calms_err | apply calms_panic
    | match goal with
      | |- calms _ (Ok _) => apply calms_ok; calm1
      | |- calms _ (if ?b then _ else _) => destruct b
      | |- calms _ (let (_, _) := ?e in _) => destruct e
      | |- calms _ (bind (A := pstate) _ _) => apply calms_bind; [|intros ?]
      | |- calms _ (bind _ _) => apply calms_val; intros ?
      | |- calms _ (match ?e with _ => _ end) => destruct e
      | |- calms ?p (?f ?q) => solve [eapply (calms_from p q); [calm1|solve [auto with calm]]]
      end ].
Lemma c_add_last pass t p : calms p (add_to_last_inline pass t p).
Proof. unfold add_to_last_inline. cbv zeta. cl. Qed.
Lemma c_add_text t p : calms p (add_text_to_last_inline t p).
Proof. apply c_add_last. Qed.
Lemma c_pass_text t p : calms p (pass_text_to_last_inline t p).
Proof. apply c_add_last. Qed.
Hint Resolve c_add_text c_pass_text : calm.
Lemma c_dangling p : calms p (handle_dangling_spans p).
Proof. unfold handle_dangling_spans. cl. Qed.
Hint Resolve c_dangling : calm.
Lemma c_add_meta w t p : calms p (p_add_metadata_from_token w t p).
Proof. unfold p_add_metadata_from_token. cl. Qed.
Hint Resolve c_add_meta : calm.
Lemma c_offset w v p : calms p (parse_level_offset w v p).
Proof. unfold parse_level_offset. cl. Qed.
Hint Resolve c_offset : calm.
Lemma c_attribute w t p : calms p (parse_attribute w t p).
Proof. unfold parse_attribute. cbv zeta. cl. Qed.
Lemma c_block_attributes w t p : calms p (parse_block_attributes w t p).
Proof. unfold parse_block_attributes. cl. Qed.
Lemma c_inline_attributes t p : calms p (parse_inline_element_attributes t p).
Proof. unfold parse_inline_element_attributes. cl. Qed.
Lemma c_span_new i p : calms p (parse_inline_span_new i p).
Proof.
  unfold parse_inline_span_new. apply calms_bind; [cl|]. intros q. apply calms_bind; [cl|]. intros r.
  destruct (p_meta r); [destruct (inline_add_metadata i m); cbn [bind]; cl; apply post_hang || apply post_exit|cbn [bind]; cl].
Qed.
Hint Resolve c_span_new : calm.
Lemma c_span i p : calms p (parse_inline_span i p).
Proof. unfold parse_inline_span. cl. Qed.
Lemma c_inline_image w t p : calms p (parse_inline_image_macro w t p).
Proof. unfold parse_inline_image_macro. cl. Qed.
Lemma c_footnote t p : calms p (parse_footnote_macro t p).
Proof. unfold parse_footnote_macro. cl. Qed.
Lemma c_flush_dangling lit p k : (forall q b, calms q (k q b)) -> calms p (let* (q, b) := flush_dangling lit p in k q b).
Proof.
  intros H. unfold flush_dangling. destruct (p_dangling p) as [nl|]; [destruct (p_preserve_nl p)|]; cbn [bind].
  - eapply calms_from; [|apply H]. calm1.
  - destruct (add_text_to_last_inline nl p) eqn:E; try discriminate; cbn [bind]; try (intros ? ?; discriminate).
    apply c_add_text in E. eapply calms_from; [|apply H]. eapply calm_trans; [exact E|calm1].
  - apply H.
Qed.
Lemma c_text t p : calms p (parse_text t p).
Proof. unfold parse_text. apply (c_flush_dangling (lit_text t) p (fun q b => if b then Ok q else add_text_to_last_inline t q)). intros q []; cl. Qed.
Lemma c_pass t p : calms p (pass_text_through t p).
Proof. unfold pass_text_through. apply (c_flush_dangling (lit_pass t) p (fun q b => if b then Ok q else pass_text_to_last_inline t q)). intros q []; cl. Qed.
Hint Resolve c_text c_pass : calm.
Lemma c_charref t p : calms p (parse_charref t p).
Proof.
  unfold parse_charref. cbv zeta. apply (c_flush_dangling (lit_charref t) p (fun p b => if b then Ok p else match p_istack p with
    | (ISpan _ _ _ _ _ _ as s) :: r =>
        if p_in_span p then Ok (set_istack (span_add s (lit_charref t) :: r) p)
        else Ok (push_inline_back (lit_charref t) p)
    | IRef v tg l m loc :: r =>
        if negb (p_close_parent p)
        then Ok (set_istack (IRef v tg (l ++ [lit_charref t]) m loc :: r) p)
        else Ok (push_inline_back (lit_charref t) p)
    | _ => Ok (push_inline_back (lit_charref t) p)
    end)). intros q b. cl.
Qed.
Lemma c_reference t p : calms p (parse_attribute_reference t p).
Proof. unfold parse_attribute_reference. cbv zeta. cl. Qed.
Lemma c_xref t p : calms p (parse_cross_reference t p).
Proof. unfold parse_cross_reference. cl. Qed.
Lemma c_callout t p : calms p (parse_code_callout t p).
Proof. unfold parse_code_callout. cl. Qed.

(** *** Functions that touch blocks *)
Definition safe (p : pstate) (m : result pstate) : Prop := Good p -> post m (fun q => Good q /\ keep p q).
Lemma safe_ok p q : (Good p -> Good q) -> keep p q -> safe p (Ok q).
Proof. intros H K G. apply post_ok. auto. Qed.
Lemma safe_err p e : safe p (Err e).
Proof. intros _. apply post_err. Qed.
Lemma safe_panic p : safe p Panic.
Proof. intros _. apply post_panic. Qed.
Lemma safe_calm p m : calms p m -> safe p m.
Proof. intros C G q E. apply C in E. split; [exact (calm_good _ _ E G)|apply E]. Qed.
Lemma safe_bind p m k : safe p m -> (forall q, keep p q -> safe q (k q)) -> safe p (bind m k).
Proof.
  intros A B G. eapply post_bind; [apply A, G|]. intros q [Gq K] r R. destruct (B q K Gq r R). split; [assumption|eapply keep_trans; eassumption].
Qed.
Lemma safe_val {A} p (m : result A) k : (forall x, m = Ok x -> safe p (k x)) -> safe p (bind m k).
Proof. intros H G. apply post_any. intros x E. now apply H. Qed.
Lemma safe_from p q m : (Good p -> Good q) -> keep p q -> safe q m -> safe p m.
Proof. intros A K H G r R. destruct (H (A G) r R). split; [assumption|eapply keep_trans; eassumption]. Qed.
Lemma safe_from_calm p q m : calm p q -> safe q m -> safe p m.
Proof. intros C. apply safe_from; [now apply calm_good|apply C]. Qed.

Lemma rt_skel a b : skel_of a = skel_of b -> rt a = rt b.
Proof. unfold rt. now intros ->. Qed.
Lemma lined_cons b r : ~ item (rt b) -> lined r -> lined (b :: r).
Proof. intros H L. split; [intros K; now destruct H|exact L]. Qed.
Lemma lined_swap b b' r : rt b' = rt b -> lined (b :: r) -> lined (b' :: r).
Proof. cbn. now intros ->. Qed.
Lemma lined_swap2 b l l' r : rt l' = rt l -> lined (b :: l :: r) -> lined (b :: l' :: r).
Proof. cbn. now intros ->. Qed.
Lemma good_calm_stack p b : Good p -> lined b -> Forall WB b -> Good (set_bstack b p).
Proof. intros (A & _ & _ & D) L F. repeat split; assumption. Qed.

Lemma s_push_stack b p : WB b -> (item (rt b) -> match p_bstack p with x :: _ => home (rt x) (rt b) | [] => False end) ->
  Good p -> post (push_block_to_stack b p) (fun q => Good q /\ keep p q /\ exists b', rt b' = rt b /\ p_bstack q = b' :: p_bstack p).
Proof.
  intros W H (A & B & C & D). unfold push_block_to_stack. rewrite A. cbn [andb].
  destruct (p_meta p) as [m|].
  - apply post_any. intros b' E. apply add_metadata_skel in E. apply post_ok. split; [|split; [split; reflexivity|exists b'; split; [now apply rt_skel|reflexivity]]].
    repeat split; cbn; try assumption; [now rewrite (rt_skel _ _ E)|constructor; [unfold WB; now rewrite E|assumption]].
  - apply post_ok. split; [|split; [split; reflexivity|exists b; auto]].
    repeat split; cbn; try assumption. constructor; assumption.
Qed.
Lemma s_push b p : WB b -> ~ item (rt b) -> safe p (push_block_to_stack b p).
Proof. intros W H G. eapply post_mono; [apply s_push_stack; auto; now intros|]. cbv beta. tauto. Qed.

Lemma WB_nil h m loc : WB (Blk h m [] loc).
Proof. constructor; constructor. Qed.
Lemma push_inlines_W l b b' : push_inlines b l = Ok b' -> rt b' = rt b /\ (WB b -> WB b').
Proof. intros E. apply push_inlines_skel in E. unfold rt, WB. rewrite E. auto. Qed.

(** the paragraph: on top of the stack, never an item *)
Lemma s_paragraph p : Good p -> post (new_paragraph p)
  (fun q => Good q /\ keep p q /\ p_istack q = [] /\ exists b, ~ item (rt b) /\ p_bstack q = b :: p_bstack p).
Proof.
  intros G. unfold new_paragraph. cbv zeta. apply post_any. intros para E. apply push_inlines_W in E as [R W].
  specialize (W (WB_nil _ _ _)). assert (~ item (rt para)) as I by (rewrite R; cbn; auto).
  assert (Good (set_istack [] p)) as G' by exact G. pose proof G as (A & _). change (p_in_cont (set_istack [] p)) with (p_in_cont p). rewrite A. cbn [andb].
  assert (forall b, WB b -> ~ item (rt b) -> forall p', p' = set_istack [] p -> post (push_block_to_stack b p') (fun q => Good q /\ keep p q /\ p_istack q = [] /\ exists b0, ~ item (rt b0) /\ p_bstack q = b0 :: p_bstack p)) as K.
  { intros b Wb Ib p' ->. intros q Q. pose proof (s_push_stack b _ Wb (fun i => False_ind _ (Ib i)) G' _ Q) as (Gq & Kq & b' & R' & Eb).
    split; [exact Gq|split; [exact Kq|split; [|exists b'; rewrite R'; auto]]].
    revert Q. unfold push_block_to_stack. cbn. rewrite A. cbn [andb]. destruct (p_meta p); [destruct (add_metadata b m); try discriminate|]; intros [= <-]; reflexivity. }
  change (p_meta (set_istack [] p)) with (p_meta p).
  destruct (p_meta p); [|now apply K].
  apply post_any. intros la _. destruct (_ || _); [|now apply K].
  apply post_any. intros q Q. apply push_block_W in Q as [Wq Rq]; [| |apply WB_nil|exact W].
  - apply K; [exact Wq|rewrite Rq; cbn; auto|reflexivity].
  - rewrite R. cbn. auto.
Qed.

Lemma add_last_force pass t p q : add_to_last_inline pass t p = Ok q -> p_force_new q = p_force_new p.
Proof.
  unfold add_to_last_inline. cbv zeta. destruct (p_istack p) as [|i r]; [intros [= <-]; reflexivity|].
  destruct i as [v f l m loc o|v tg l m loc|n k v loc|loc].
  - destruct (p_in_span p); intros [= <-]; reflexivity.
  - destruct (negb (p_close_parent p)); [|intros [= <-]; reflexivity]. intros H. apply bind_ok in H as (i' & _ & H). injection H as <-. reflexivity.
  - destruct n; intros [= <-]; reflexivity.
  - intros [= <-]; reflexivity.
Qed.
Lemma dangling_force p q : handle_dangling_spans p = Ok q -> p_force_new q = p_force_new p.
Proof.
  unfold handle_dangling_spans. destruct (split_at_first is_open (p_istack p)) as [[[above o] below]|]; [|intros [= <-]; reflexivity].
  intros Q. apply bind_ok in Q as (lit & _ & Q). apply bind_ok in Q as ([|c cs] & _ & Q).
  - destruct (destructure_inline_locations _) as [[? ?] ?]. now apply add_last_force in Q.
  - apply bind_ok in Q as (c' & _ & Q). injection Q as <-. reflexivity.
Qed.
(** the inlines go to the top of the stack or into a new block above *)
Lemma s_inlines p : Good p -> post (add_inlines_to_block_stack p) (fun q => Good q /\ keep p q /\
  p_istack q = [] /\
  ((exists b, ~ item (rt b) /\ p_bstack q = b :: p_bstack p /\ (p_in_line p = true \/ p_force_new p = true \/ p_bstack p = [] \/ exists l r, p_bstack p = l :: r /\ takes_inlines l = false)) \/ Forall2 (fun x y => rt x = rt y) (p_bstack q) (p_bstack p))).
Proof.
  intros G. unfold add_inlines_to_block_stack.
  assert (Forall2 (fun x y => rt x = rt y) (p_bstack p) (p_bstack p)) as F by (induction (p_bstack p); constructor; auto).
  destruct (p_istack p) as [|i0 is0] eqn:Ei; [apply post_ok; repeat split; try apply G; auto|].
  apply post_bind with (R := fun q => calm p q /\ p_force_new q = p_force_new p).
  { destruct (p_in_span p); [|apply post_ok; split; [apply calm_refl|reflexivity]]. intros q Q. split; [now apply c_dangling|].
    now apply dangling_force. }
  intros q [C Fq]. pose proof (calm_good _ _ C G) as Gq. destruct C as (_ & Eb & _ & K).
  destruct (p_header q).
  { apply post_ok. split; [exact Gq|split; [exact K|split; [reflexivity|]]]. right. cbn. now rewrite Eb. }
  assert (forall (m : result pstate), m = new_paragraph q -> (p_in_line p = true \/ p_force_new p = true \/ p_bstack p = [] \/ exists l r, p_bstack p = l :: r /\ takes_inlines l = false) ->
    post m (fun q0 => Good q0 /\ keep p q0 /\ p_istack q0 = [] /\ ((exists b, ~ item (rt b) /\ p_bstack q0 = b :: p_bstack p /\ (p_in_line p = true \/ p_force_new p = true \/ p_bstack p = [] \/ exists l r, p_bstack p = l :: r /\ takes_inlines l = false)) \/ Forall2 (fun x y => rt x = rt y) (p_bstack q0) (p_bstack p)))) as N.
  { intros m -> Why. eapply post_mono; [apply s_paragraph, Gq|]. cbv beta. intros r (Gr & Kr & Ir & b & Hb & Er). split; [exact Gr|split; [eapply keep_trans; eassumption|split; [exact Ir|]]].
    left. exists b. rewrite Er, Eb. auto. }
  destruct (p_bstack q) as [|l r] eqn:Eq; [apply N; [reflexivity|]; rewrite <- Eb in *; auto|].
  destruct (takes_inlines l) eqn:Et; [|apply N; [reflexivity|right; right; right; rewrite <- Eb; eauto]].
  destruct (p_in_line q) eqn:El; cbn [negb andb]; [apply N; [reflexivity|left; rewrite <- El; symmetry; apply K]|].
  destruct (p_force_new q) eqn:Ef; cbn [negb andb]; [apply N; [reflexivity|right; left; congruence]|].
  apply post_any. intros l' E. apply push_inlines_W in E as [R W]. apply post_ok.
  destruct Gq as (A & B & C & D). rewrite Eq in B, C. inversion C. subst.
  split; [|split; [split; apply K|split; [reflexivity|]]].
  - split; [exact A|split; [exact (lined_swap l l' r R B)|split; [constructor; auto|exact D]]].
  - right. cbn. rewrite <- Eb in F |- *. inversion F. constructor; [exact R|assumption].
Qed.
Lemma s_add_inlines p : safe p (add_inlines_to_block_stack p).
Proof. intros G. eapply post_mono; [apply s_inlines, G|]. cbv beta. tauto. Qed.
Lemma item_takes b : item (rt b) -> takes_inlines b = true.
Proof. destruct b as [[]]; cbn; tauto. Qed.
Lemma item_test b : is_list_item b || is_dlist_item b = true <-> item (rt b).
Proof. destruct b as [[]]; cbn; split; try tauto; discriminate. Qed.
Lemma s_last_item p it l r : p_bstack p = it :: l :: r -> item (rt it) -> p_in_line p = false \/ p_istack p = [] -> Good p ->
  post (add_last_list_item_to_list p) (fun q => Good q /\ keep p q /\ exists l' r', p_bstack q = l' :: r' /\ rt l' = rt l).
Proof.
  intros E I L G. unfold add_last_list_item_to_list.
  apply post_bind with (R := fun q => Good q /\ keep p q /\ exists it' l' r', p_bstack q = it' :: l' :: r' /\ rt it' = rt it /\ rt l' = rt l).
  { intros q Q. pose proof (s_inlines (set_force_new false p) G q Q) as (Gq & K & _ & [(b & Hb & Eb & [H|[H|[H|H]]])|F]).
    - cbn in H. destruct L as [L|L]; [congruence|]. unfold add_inlines_to_block_stack in Q. cbn [p_istack set_force_new] in Q. rewrite L in Q.
      injection Q as <-. cbn in Eb. exfalso. apply (f_equal (@List.length _)) in Eb. cbn in Eb. lia.
    - discriminate.
    - cbn in H. congruence.
    - destruct H as (x & y & H & T). cbn in H. rewrite E in H. injection H as <- <-. rewrite item_takes in T; [discriminate|exact I].
    - cbn in F. rewrite E in F. inversion F as [|it' ? x ? R1 F1 Eq]. subst. inversion F1 as [|l' ? r' ? R2 F2 Eq2]. subst.
      split; [exact Gq|split; [exact K|]]. exists it', l', r'. auto. }
  intros q (Gq & K & it' & l' & r' & Eb & R1 & R2). rewrite Eb.
  rewrite (proj2 (item_test it')) by now rewrite R1.
  destruct Gq as (A & B & C & D). rewrite Eb in B, C. destruct B as [B1 [B2 B3]]. inversion C as [|? ? W1 C']. inversion C' as [|? ? W2 W3]. subst.
  apply post_any. intros l2 P. apply push_block_W in P as [W R]; [|apply B1; now rewrite R1|exact W2|exact W1].
  apply post_ok. split; [|split; [exact K|exists l2, r'; split; [reflexivity|now rewrite R]]].
  split; [exact A|split; [|split; [constructor; assumption|exact D]]]. apply (lined_swap l'); [exact R|split; assumption].
Qed.

(** *** Blocks leave the stack *)
Lemma takes_home l b : ~ item (rt b) -> takes_block l b = true -> home (rt l) (rt b).
Proof.
  intros I T. apply takes_admits in T. fold (rt l) (rt b) in T. destruct (rt b); cbn in *; try tauto; destruct (rt l); cbn in *; try tauto; try (destruct T; discriminate); try discriminate.
Qed.
Lemma home_takes l b : item (rt b) -> home (rt l) (rt b) -> takes_block l b = true.
Proof.
  intros I T. apply takes_admits. fold (rt l) (rt b). destruct (rt b); cbn in *; try tauto.
  - destruct T as (v & -> & _). cbn. eauto.
  - destruct T as [-> _]. reflexivity.
Qed.
Lemma GA_push a b : GA a -> WB b -> ~ item (rt b) -> post (asg_push_block a b) GA.
Proof.
  intros G W I. unfold asg_push_block. set (b1 := consolidate_locations b).
  assert (WB b1) as W1 by (unfold WB, b1; now rewrite skel_consolidate).
  assert (rt b1 = rt b) as R1 by (unfold rt, b1; now rewrite skel_consolidate).
  assert (GA (mkAsg (a_attrs a) (a_header a) (a_docid a) (mextend (a_ids a) (id_hashes b1)) (a_blocks a ++ [b1]) (a_loc a))) as Gs.
  { unfold GA. cbn. apply Forall_app. split; [exact G|]. constructor; [split; [exact W1|now rewrite R1]|constructor]. }
  apply post_any. intros bl E. apply post_ok. revert E.
  destruct (is_section b1) eqn:S; [|intros [= <-]; exact Gs].
  destruct (last_opt (a_blocks a)) as [x|] eqn:El; [|intros [= <-]; exact Gs].
  destruct (takes_block x b1) eqn:T; [|intros [= <-]; exact Gs].
  intros E. apply last_opt_inv in El as [k Ek]. unfold GA in *. rewrite Ek in *. rewrite upd_last_snoc in E.
  apply Forall_app in G as [G1 G2]. apply Forall_inv in G2. destruct (push_block x b1) as [x'| | | |] eqn:P; try discriminate. cbn in E. injection E as <-.
  apply push_block_W in P as [Wx Rx]; [|apply takes_home; [now rewrite R1|exact T]|apply G2|exact W1].
  cbn. apply Forall_app. split; [exact G1|]. constructor; [split; [exact Wx|now rewrite Rx]|constructor].
Qed.
Lemma s_asg_push b p : WB b -> ~ item (rt b) -> safe p (p_asg_push b p).
Proof.
  intros W I (A & B & C & D). unfold p_asg_push. eapply post_bind; [now apply (GA_push (p_asg p) b)|]. intros a Ga. apply post_ok.
  split; [|split; reflexivity]. repeat split; assumption.
Qed.
Lemma take_inv b p b' q : take_metadata b p = Ok (b', q) -> calm p q /\ skel_of b' = skel_of b.
Proof.
  unfold take_metadata. destruct (p_meta p); [|intros [= <- <-]; split; [apply calm_refl|reflexivity]].
  destruct (add_metadata b m) eqn:E; try discriminate. intros [= <- <-]. apply add_metadata_skel in E. split; [calm1|exact E].
Qed.
Lemma s_stack_or_graph b p : WB b -> ~ item (rt b) -> safe p (add_to_block_stack_or_graph b p).
Proof.
  intros W I. unfold add_to_block_stack_or_graph. cbv zeta.
  assert (safe p (let* (b', p') := take_metadata b p in p_asg_push b' p')) as K.
  { apply safe_val. intros [b' q] E. apply take_inv in E as [C S]. eapply safe_from_calm; [exact C|]. apply s_asg_push; [unfold WB; now rewrite S|now rewrite (rt_skel _ _ S)]. }
  destruct (p_bstack p) as [|l r] eqn:Eb; [exact K|]. destruct (takes_block l b) eqn:T; [|exact K].
  intros (A & B & C & D). rewrite Eb in B, C. inversion C. subst. apply post_any. intros l' P.
  apply push_block_W in P as [Wl Rl]; [|now apply takes_home|assumption|exact W]. apply post_ok. split; [|split; reflexivity].
  split; [exact A|split; [exact (lined_swap l l' r Rl B)|split; [constructor; assumption|exact D]]].
Qed.
(** the block on top joins the one below or the graph *)
Lemma s_pop p q b r : Good p -> p_bstack p = b :: r -> forall b', skel_of b' = skel_of b -> calm (set_bstack r p) q ->
  post (match r with
      | l :: r' => if takes_block l b' then let* l' := push_block l b' in Ok (set_bstack (l' :: r') q) else p_asg_push b' q
      | [] => p_asg_push b' q end) (fun x => Good x /\ keep p x).
Proof.
  intros (A & B & C & D) E b' S Cq. rewrite E in B, C. destruct B as [B1 B2]. inversion C as [|? ? W1 W2]. subst.
  assert (WB b') as W by (unfold WB; now rewrite S). assert (rt b' = rt b) as R by now apply rt_skel.
  assert (Good q) as Gq.
  { apply (calm_good _ _ Cq). repeat split; assumption. }
  assert (keep p q) as Kq by apply Cq.
  assert (~ item (rt b') -> post (p_asg_push b' q) (fun x => Good x /\ keep p x)) as N.
  { intros I x X. destruct (s_asg_push b' q W I Gq x X) as [Gx Kx]. split; [exact Gx|eapply keep_trans; eassumption]. }
  destruct r as [|l r'].
  - apply N. rewrite R. intros I. now apply B1 in I.
  - destruct (takes_block l b') eqn:T.
    + apply post_any. intros l' P. assert (home (rt l) (rt b')) as H.
      { destruct (item_dec (rt b)) as [I|I]; [rewrite R; now apply B1|apply takes_home; [now rewrite R|exact T]]. }
      inversion W2. subst. apply push_block_W in P as [Wl Rl]; [|exact H|assumption|exact W]. apply post_ok. split; [|split; apply Cq].
      destruct Gq as (A' & _ & _ & D'). split; [exact A'|split; [exact (lined_swap l l' r' Rl B2)|split; [constructor; assumption|exact D']]].
    + apply N. intros I. rewrite home_takes in T; [discriminate|exact I|]. rewrite R in *. now apply B1.
Qed.
Lemma s_last_stack_or_graph p : safe p (add_last_to_block_stack_or_graph p).
Proof.
  intros G. unfold add_last_to_block_stack_or_graph. destruct (p_bstack p) as [|b r] eqn:E; [apply post_err|].
  now apply (s_pop p (set_bstack r p) b r G E b eq_refl), calm_refl.
Qed.
Lemma s_last_to_graph p : safe p (add_last_block_to_graph p).
Proof.
  intros G. unfold add_last_block_to_graph. destruct (p_bstack p) as [|b r] eqn:E; [apply post_ok; split; [exact G|apply keep_refl]|].
  apply post_any. intros [b' q] T. apply take_inv in T as [C S]. exact (s_pop p q b r G E b' S C).
Qed.
Lemma s_flush f : forall n p, safe p (flush_blocks f n p).
Proof.
  induction f as [|f IH]; intros n p; cbn [flush_blocks]; destruct (_ <=? n); try (apply safe_ok; [auto|apply keep_refl]).
  - intros _. apply post_hang.
  - apply safe_bind; [apply s_last_to_graph|]. intros q _. apply IH.
Qed.
Lemma s_header w p : safe p (check_and_move_header w p).
Proof.
  unfold check_and_move_header. apply safe_bind; [apply s_add_inlines|]. intros q _. apply safe_ok.
  - intros G. destruct (p_header q) as [h|]; [|exact G]. destruct (hd_title h); exact G.
  - destruct (p_header q) as [h|]; [|split; reflexivity]. destruct (hd_title h); split; reflexivity.
Qed.

(** ** The branches of the dispatch *)
Lemma s_newline w t p : Good p -> post (parse_new_line_char w t p) (fun q => Good q /\ keep (set_in_line false p) q).
Proof.
  intros G. unfold parse_new_line_char. cbv zeta.
  set (p1 := match p_title (set_in_line false p) with Some ti => _ | None => _ end).
  assert (calm (set_in_line false p) p1) as C1 by (unfold p1; destruct (p_title (set_in_line false p)); calm1).
  clearbody p1. assert (Good p1) as G1 by (apply (calm_good _ _ C1); exact G).
  assert (p_in_line p1 = false) as L1 by (destruct C1 as (_ & _ & _ & K & _); exact K).
  assert (forall m, safe p1 m -> post m (fun q => Good q /\ keep (set_in_line false p) q)) as Fin.
  { intros m H q Q. destruct (H G1 q Q). split; [assumption|]. eapply keep_trans; [apply C1|assumption]. }
  clear C1 G. apply Fin. clear Fin.
  destruct (_ || _).
  - eapply (safe_from_calm p1 (set_dangling None p1)); [calm1|].
    change (p_in_line p1) with (p_in_line (set_dangling None p1)) in L1. change (Good p1) with (Good (set_dangling None p1)) in G1.
    generalize dependent (set_dangling None p1). clear p1. intros p1 G1 L1.
    destruct (p_header p1); [apply s_header|].
    intros _. eapply post_bind with (R := fun q => Good q /\ keep p1 q /\ match p_bstack q with b :: _ => ~ item (rt b) | [] => True end).
    + destruct (p_bstack p1) as [|b r] eqn:E; [apply post_ok; rewrite E; split; [exact G1|split; [apply keep_refl|exact I]]|].
      destruct (is_list_item b || is_dlist_item b) eqn:It.
      * apply item_test in It. pose proof G1 as (_ & B & _). rewrite E in B. destruct B as [B _]. specialize (B It). destruct r as [|l r]; [destruct B|].
        eapply post_mono; [apply (s_last_item p1 b l r); auto|]. cbv beta. intros q (Gq & Kq & l' & r' & Eq & Rl). split; [exact Gq|split; [exact Kq|]]. rewrite Eq, Rl.
        destruct (rt b); try tauto; cbn in B; [destruct B as (v & -> & _)|destruct B as [-> _]]; cbn; auto.
      * apply post_ok. rewrite E. split; [exact G1|split; [apply keep_refl|]]. intros K. apply item_test in K. congruence.
    + intros p2 (G2 & K2 & T2).
      eapply post_bind with (R := fun q => Good q /\ keep p1 q /\ match p_bstack q with b :: _ => ~ item (rt b) | [] => True end).
      * intros q Q. pose proof (s_inlines (set_in_span false p2) G2 q Q) as (Gq & Kq & _ & [(b & Hb & Eb & _)|F]).
        -- split; [exact Gq|split; [eapply keep_trans; [exact K2|exact Kq]|]]. now rewrite Eb.
        -- split; [exact Gq|split; [eapply keep_trans; [exact K2|exact Kq]|]]. cbn in F. destruct F as [|x y ? ? R]; [exact I|]. now rewrite R.
      * clear p2 G2 K2 T2. intros p3 (G3 & K3 & T3). change (p_bstack (set_force_new true p3)) with (p_bstack p3).
        destruct (p_bstack p3) as [|b r] eqn:E; [apply post_ok; split; [exact G3|exact K3]|].
        pose proof G3 as (A & B & C & D). rewrite E in B, C. destruct B as [_ B]. inversion C as [|? ? Wb Wr]. subst.
        assert (Good (set_bstack r (set_force_new true p3))) as G4 by (repeat split; assumption).
        assert (forall m, safe (set_bstack r (set_force_new true p3)) m -> post m (fun q => Good q /\ keep p1 q)) as Fin.
        { intros m H q Q. destruct (H G4 q Q). split; [assumption|]. eapply keep_trans; [exact K3|assumption]. }
        apply Fin. destruct (_ && _).
        -- apply safe_bind; [now apply s_stack_or_graph|]. intros q _. destruct (_ && _); [|apply safe_calm, calms_ok, calm_refl].
           apply safe_bind; [apply s_last_stack_or_graph|]. intros x _. apply safe_calm, calms_ok; calm1.
        -- now apply s_push.
  - destruct (_ || _); apply safe_calm, calms_ok; calm1.
Qed.
Lemma s_break v t p : safe p (parse_break v t p).
Proof. apply s_stack_or_graph; [apply WB_nil|cbn; auto]. Qed.
Lemma s_image w t p : safe p (parse_block_image w t p).
Proof.
  unfold parse_block_image. apply safe_val. intros [target m] _. apply safe_val. intros _ _.
  destruct (p_meta p) as [pm|]; [eapply (safe_from_calm p (set_meta None p)); [calm1|]; cbv zeta iota; generalize (set_meta None p); intros q|generalize p; intros q];
  (destruct (p_title q) as [ti|]; [eapply (safe_from_calm q (set_title None q)); [calm1|]|]; apply s_stack_or_graph; [apply WB_nil|cbn; auto|apply WB_nil|cbn; auto]).
Qed.
Lemma s_admonition t p : safe p (parse_admonition_para_syntax t p).
Proof.
  unfold parse_admonition_para_syntax. apply safe_val. intros b E. apply safe_ok; [|split; reflexivity].
  assert (WB b /\ ~ item (rt b)) as [W I].
  { revert E. unfold parent_from_token. destruct (ttype t); try discriminate; intros [= <-]; (split; [apply WB_nil|cbn; auto]). }
  intros (A & B & C & D). split; [exact A|split; [now apply lined_cons|split; [now constructor|exact D]]].
Qed.
Lemma s_then_item (mk : bytes) loc v p m : marks_item v (trim mk) ->
  (Good p -> post m (fun q => Good q /\ keep p q /\ exists l r, p_bstack q = l :: r /\ rt l = KList v)) ->
  safe p (let* q := m in push_block_to_stack (new_list_item mk loc) q).
Proof.
  intros M H G. eapply post_bind; [apply H, G|]. cbv beta. intros q (Gq & K & l & r & E & R) x X.
  pose proof (s_push_stack (new_list_item mk loc) q (WB_nil _ _ _)) as P.
  destruct (P ltac:(intros _; rewrite E, R; cbn; eauto) Gq x X) as (Gx & Kx & _). split; [exact Gx|eapply keep_trans; eassumption].
Qed.
Lemma s_new_list b v p : WB b -> rt b = KList v -> Good p ->
  post (push_block_to_stack b p) (fun q => Good q /\ keep p q /\ exists l r, p_bstack q = l :: r /\ rt l = KList v).
Proof.
  intros W R G. eapply post_mono; [apply s_push_stack; auto; rewrite R; cbn; tauto|]. cbv beta. intros q (Gq & K & b' & R' & E).
  split; [exact Gq|split; [exact K|exists b', (p_bstack p); split; [exact E|congruence]]].
Qed.
Lemma s_unordered t p : marks_item LUnordered (trim (lexeme t)) -> p_in_line p = false -> safe p (parse_unordered_list_item t p).
Proof.
  intros M L. unfold parse_unordered_list_item. cbv zeta. eapply (safe_from_calm p (set_dangling None p)); [calm1|].
  change (p_in_line p) with (p_in_line (set_dangling None p)) in L. generalize dependent (set_dangling None p). clear p. intros p L.
  apply (s_then_item _ _ LUnordered); [exact M|]. intros G. pose proof G as (_ & B & _).
  destruct (p_bstack p) as [|b r] eqn:E; [apply s_new_list; auto; apply WB_nil|].
  destruct (is_unordered_list_item b) eqn:U; [|apply s_new_list; auto; apply WB_nil].
  destruct B as [B _].
  assert (rt b = KListItem (bs "*")) as R.
  { revert U. unfold is_unordered_list_item. destruct b as [[]]; cbn; try discriminate. intros U. apply beqb_true in U. now rewrite U. }
  rewrite R in B. specialize (B I). destruct r as [|l r]; [destruct B|]. destruct B as (v & Ev & Mv).
  eapply post_mono; [apply (s_last_item p b l r); auto; rewrite R; exact I|]. cbv beta. intros q (Gq & K & l' & r' & Eq & Rl).
  split; [exact Gq|split; [exact K|exists l', r'; split; [exact Eq|]]]. rewrite Rl, Ev. f_equal. destruct v; [|reflexivity].
  exfalso. destruct Mv as [Mv|[x Mv]]; discriminate.
Qed.
Lemma s_ordered t p : marks_item LOrdered (trim (lexeme t)) -> p_in_line p = false -> safe p (parse_ordered_list_item t p).
Proof.
  intros M L. unfold parse_ordered_list_item. cbv zeta. eapply (safe_from_calm p (set_dangling None p)); [calm1|].
  change (p_in_line p) with (p_in_line (set_dangling None p)) in L. generalize dependent (set_dangling None p). clear p. intros p L.
  apply (s_then_item _ _ LOrdered); [exact M|]. intros G. pose proof G as (_ & B & _).
  assert (post (if tt_eqb (ttype t) TCodeCalloutListItem then
        let* p :=
          match p_bstack p with
          | b :: _ => if is_source_block b then add_last_to_block_stack_or_graph p else Ok p
          | [] => Ok p
          end in
        push_block_to_stack (Blk (HList LOrdered) (Some (meta_with_role (bs "colist"))) []
                                 (token_locations t)) p
      else push_block_to_stack (new_list LOrdered (token_locations t)) p)
     (fun q => Good q /\ keep p q /\ exists l r, p_bstack q = l :: r /\ rt l = KList LOrdered)) as N.
  { destruct (tt_eqb _ _); [|apply s_new_list; auto; apply WB_nil].
    apply post_bind with (R := fun q => Good q /\ keep p q).
    - destruct (p_bstack p); [apply post_ok; split; [exact G|apply keep_refl]|]. destruct (is_source_block b); [now apply s_last_stack_or_graph|apply post_ok; split; [exact G|apply keep_refl]].
    - intros q [Gq Kq]. eapply post_mono; [apply (s_new_list _ LOrdered); auto; apply WB_nil|]. cbv beta. intros x (Gx & Kx & H). split; [exact Gx|split; [eapply keep_trans; eassumption|exact H]]. }
  destruct (p_bstack p) as [|b r] eqn:E; [exact N|].
  destruct (is_ordered_list_item b) eqn:U; [|exact N]. clear N.
  destruct B as [B _].
  assert (exists mk, rt b = KListItem mk /\ mk <> bs "*") as (mk & R & Nm).
  { revert U. unfold is_ordered_list_item. destruct b as [[]]; cbn [b_head]; try discriminate. intros U. exists marker. split; [reflexivity|]. intros ->. discriminate U. }
  rewrite R in B. specialize (B I). destruct r as [|l r]; [destruct B|]. destruct B as (v & Ev & Mv).
  eapply post_mono; [apply (s_last_item p b l r); auto; rewrite R; exact I|]. cbv beta. intros q (Gq & K & l' & r' & Eq & Rl).
  split; [exact Gq|split; [exact K|exists l', r'; split; [exact Eq|]]]. rewrite Rl, Ev. f_equal. destruct v; [reflexivity|]. now destruct Nm.
Qed.
Lemma s_dlist t p : dl = true -> safe p (parse_description_list_term t p).
Proof.
  intros Hd. unfold parse_description_list_term. cbv zeta. eapply (safe_from_calm p (set_force_new false p)); [calm1|].
  generalize (set_force_new false p). clear p. intros p.
  apply safe_bind.
  { destruct (split_at_newline (rev (p_istack p))) as [[before next]|]; [|apply safe_calm, calms_ok, calm_refl].
    apply safe_bind; [eapply safe_from_calm; [|apply s_add_inlines]; calm1|]. intros q _. apply safe_calm, calms_ok. calm1. }
  intros q _. set (it := new_dlist_item (rev (p_istack q)) (token_locations t)).
  eapply (safe_from_calm q (set_istack [] q)); [calm1|]. assert (p_istack (set_istack [] q) = []) as Ei by reflexivity. generalize dependent (set_istack [] q). intros p1 Ei.
  assert (rt it = KDListItem) as Ri by reflexivity. assert (WB it) as Wi by apply WB_nil. clearbody it.
  intros G. eapply post_bind with (R := fun q => Good q /\ keep p1 q /\ exists l r, p_bstack q = l :: r /\ rt l = KDList).
  - pose proof G as (_ & B & _).
    assert (post (push_block_to_stack (new_dlist (b_locs it)) p1) (fun q => Good q /\ keep p1 q /\ exists l r, p_bstack q = l :: r /\ rt l = KDList)) as N.
    { eapply post_mono; [apply s_push_stack; auto; [apply WB_nil|cbn; tauto]|]. cbv beta. intros x (Gx & Kx & b' & R' & E).
      split; [exact Gx|split; [exact Kx|exists b', (p_bstack p1); split; [exact E|exact R']]]. }
    destruct (p_bstack p1) as [|b r] eqn:E; [exact N|]. destruct (is_dlist_item b) eqn:U; [|exact N].
    assert (rt b = KDListItem) as R by (destruct b as [[]]; try discriminate; reflexivity).
    destruct B as [B _]. rewrite R in B. specialize (B I). destruct r as [|l r]; [destruct B|].
    eapply post_mono; [apply (s_last_item p1 b l r); auto; rewrite R; exact I|]. cbv beta. intros x (Gx & K & l' & r' & Eq & Rl).
    split; [exact Gx|split; [exact K|exists l', r'; split; [exact Eq|]]]. rewrite Rl. apply B.
  - cbv beta. intros x (Gx & Kx & l & r & E & R). eapply post_bind with (R := fun y => Good y /\ keep p1 y).
    + intros y Y. assert (item (rt it) -> match p_bstack x with x :: _ => home (rt x) (rt it) | [] => False end) as H by (intros _; rewrite E, R, Ri; split; [reflexivity|exact Hd]).
      destruct (s_push_stack it x Wi H Gx y Y) as (Gy & Ky & _). split; [exact Gy|eapply keep_trans; eassumption].
    + intros y [Gy Ky]. apply post_ok. split; [exact Gy|exact Ky].
Qed.
Lemma s_headings w t p : Good p -> post (parse_section_headings w t p) (fun q => Good q /\ p_open_type q = p_open_type p).
Proof.
  intros G. unfold parse_section_headings. apply post_any. intros level _. eapply post_bind with (R := fun q => Good q /\ keep p q).
  - destruct (p_bstack p); [apply post_ok; split; [exact G|apply keep_refl]|]. destruct (is_section b); [now apply s_last_stack_or_graph|apply post_ok; split; [exact G|apply keep_refl]].
  - intros q [Gq Kq]. eapply post_bind; [apply (s_push (new_section level (first_location t)) q); [apply WB_nil|cbn; auto|exact Gq]|].
    cbv beta. intros x [Gx Kx]. apply post_ok. split; [exact Gx|]. cbn. destruct Kq as [_ K1], Kx as [_ K2]. congruence.
Qed.
Lemma s_title w t p : Good p -> post (parse_title w t p) (fun q => Good q /\ p_open_type q = p_open_type p).
Proof.
  intros G. unfold parse_title. destruct (negb _); [now apply s_headings|]. destruct (loc_eqb _ _); [apply post_ok; split; [exact G|reflexivity]|apply post_err].
Qed.
Lemma s_leaf t p : Good p -> post (parse_delimited_leaf_block t p) Good.
Proof.
  intros G. unfold parse_delimited_leaf_block. destruct (p_open_type p).
  - eapply post_bind; [apply s_add_inlines, G|]. cbv beta. intros q [(A & B & C & D) _]. destruct (p_bstack q) as [|b r] eqn:E; [apply post_err|].
    destruct B as [B1 B2]. inversion C as [|? ? Wb Wr]. subst. apply post_any. intros b' L.
    assert (~ item (rt b')) as I by (destruct b as [[]]; try discriminate; injection L as <-; cbn; auto).
    apply add_locations_skel in L.
    eapply post_bind; [apply (s_push b' (set_bstack r q)); [unfold WB; now rewrite L|exact I|repeat split; assumption]|].
    cbv beta. intros x [Gx _]. apply post_ok. exact Gx.
  - cbv zeta. apply post_any. intros b L.
    assert (WB b /\ ~ item (rt b)) as [W I].
    { revert L. unfold leaf_from_token. destruct (ttype t); try discriminate; intros [= <-]; (split; [apply WB_nil|cbn; auto]). }
    eapply post_bind; [apply (s_push b (set_open_type (Some (ttype t)) p)); [exact W|exact I|exact G]|].
    cbv beta. intros x [Gx _]. apply post_ok. exact Gx.
Qed.
Lemma s_macro_close t p : Good p -> post (parse_inline_macro_close t p) Good.
Proof.
  intros G. assert (safe p (match split_at_first is_macro (p_istack p) with
      | Some (above, m, below) =>
          let* m := inline_push_all m (rev above) in
          let* m := consolidate_from_token m t in
          Ok (set_in_span false (set_close_parent true (set_istack (m :: below) p)))
      | None => add_text_to_last_inline t p
      end)) as K by (apply safe_calm; cl).
  unfold parse_inline_macro_close. destruct (p_open_type p) as [[]|]; try (eapply post_mono; [apply K, G|cbv beta; tauto]). apply post_ok. exact G.
Qed.

(** *** Closing a delimited parent block *)
Fixpoint chain (prev : option shape) (l : list block) : Prop :=
  match l with
  | [] => True
  | b :: r => (item (rt b) -> exists s, prev = Some s /\ home s (rt b)) /\ chain (Some (rt b)) r
  end.
Lemma last_opt_cons {A} (a b : A) l : last_opt (a :: b :: l) = last_opt (b :: l).
Proof. unfold last_opt. cbn. destruct (rev l); reflexivity. Qed.
Lemma chain_snoc l : forall c x, chain c l -> (item (rt x) -> exists y, last_opt l = Some y /\ home (rt y) (rt x)) -> chain c (l ++ [x]).
Proof.
  induction l as [|a l IH]; intros c x C H.
  - cbn. split; [|exact I]. intros K. destruct (H K) as (y & E & _). discriminate.
  - destruct C as [C1 C2]. cbn. split; [exact C1|]. destruct l as [|b l].
    + cbn. split; [|exact I]. intros K. destruct (H K) as (y & E & Hy). injection E as <-. eauto.
    + apply (IH _ x C2). intros K. destruct (H K) as (y & E & Hy). exists y. split; [now rewrite last_opt_cons in E|exact Hy].
Qed.
Lemma chain_rev top : forall rest, lined (top ++ rest) -> (forall x, last_opt top = Some x -> ~ item (rt x)) -> chain None (rev top).
Proof.
  induction top as [|b top IH]; intros rest L H; [exact I|]. cbn [app lined] in L. destruct L as [L1 L2]. cbn [rev]. apply chain_snoc.
  - apply (IH rest L2). intros x X. apply H. destruct top; [discriminate|now rewrite last_opt_cons].
  - intros K. destruct top as [|y top]; [exfalso; now apply (H b eq_refl)|]. exists y. split; [cbn; apply last_opt_snoc|]. exact (L1 K).
Qed.
Lemma push_parent_item n v d ti m k x loc mk lv nb b' : push_block (Blk (HParent n v d ti) m (k ++ [x]) loc) nb = Ok b' ->
  rt nb = KListItem mk -> rt x = KList lv -> marks_item lv mk -> WB (Blk (HParent n v d ti) m (k ++ [x]) loc) -> WB nb ->
  WB b' /\ rt b' = KParent n v /\ exists k' x', b_kids b' = k' ++ [x'] /\ rt x' = KList lv.
Proof.
  intros P Rn Rx M W N. cbn [push_block] in P.
  assert (is_list_item nb = true) as E1 by (apply is_list_item_shape; eauto). assert (is_list x = true) as E2 by (apply is_list_shape; eauto).
  rewrite E1, last_opt_snoc, E2, upd_last_snoc in P.
  destruct (push_block x nb) as [x'| | | |] eqn:Px; try discriminate. cbn [bind] in P.
  assert (b' = consolidate_locations (Blk (HParent n v d ti) m (k ++ [consolidate_locations x']) loc)) as -> by congruence.
  unfold WB in *. rewrite skel_consolidate. cbn [skel_of shape_of] in *. rewrite map_app in *. cbn [map] in *. rewrite skel_consolidate.
  apply push_block_W in Px as [Wx Rx']; [| |now apply WS_last in W|exact N].
  - split; [|split; [|]].
    + eapply WS_upd; [exact W|exact Rx'|exact Wx].
    + unfold rt. rewrite skel_consolidate. reflexivity.
    + exists k, (consolidate_locations x'). split; [reflexivity|]. unfold rt. rewrite skel_consolidate. fold (rt x'). congruence.
  - rewrite Rx, Rn. cbn. eauto.
Qed.
Lemma push_blocks_W l : dl = false -> forall c b b', push_blocks b l = Ok b' -> (exists n v, rt b = KParent n v) -> WB b -> Forall WB l -> chain c l ->
  (forall v, c = Some (KList v) -> exists k x, b_kids b = k ++ [x] /\ rt x = KList v) -> WB b' /\ rt b' = rt b.
Proof.
  intros Hd. induction l as [|x l IH]; intros c b b' P Rb W F C H.
  - injection P as <-. auto.
  - cbn [push_blocks] in P. apply bind_ok in P as (b1 & P1 & P2). inversion F as [|? ? Wx Fl]. subst. destruct C as [C1 C2].
    destruct (item_dec (rt x)) as [K|K].
    + destruct (C1 K) as (s & -> & Hs). destruct (rt x) eqn:Rx; try now destruct K.
      * destruct Hs as (lv & -> & M). destruct (H lv eq_refl) as (k & y & Ek & Ry).
        destruct b as [h m k0 loc]. cbn in Ek. subst k0. destruct Rb as (n & v & Rb). destruct h; try discriminate Rb.
        destruct (push_parent_item _ _ _ _ _ _ _ _ _ _ _ _ P1 Rx Ry M W Wx) as (W1 & R1 & _).
        destruct (IH (Some (KListItem marker)) b1 b' P2) as [W2 R2]; auto; [eauto|intros v' E; discriminate|].
        split; [exact W2|]. rewrite R2, R1. reflexivity.
      * destruct Hs as [_ E]. congruence.
    + assert (push_block b x = Ok b1) as P1' by exact P1.
      apply push_block_W in P1 as [W1 R1]; [|destruct Rb as (n & v & ->); destruct (rt x); cbn in *; tauto|exact W|exact Wx].
      destruct (IH (Some (rt x)) b1 b' P2) as [W2 R2]; auto; [rewrite R1; exact Rb| |split; congruence].
      intros v E. injection E as E. destruct b as [h m k loc]. destruct Rb as (n & v' & Rb). destruct h; try discriminate Rb.
      cbn [push_block] in P1'. assert (is_list_item x = false) as I1 by (destruct x as [[]]; try reflexivity; cbn in K; tauto).
      rewrite I1 in P1'. destruct (_ && _); [discriminate|]. cbn [bind] in P1'. injection P1' as <-. exists k, x. split; [reflexivity|exact E].
Qed.
Lemma split_first_app {A} (f : A -> bool) l : forall a x b, split_at_first f l = Some (a, x, b) -> l = a ++ x :: b /\ f x = true.
Proof.
  induction l as [|y l IH]; intros a x b H; [discriminate|]. cbn in H. destruct (f y) eqn:E; [injection H as <- <- <-; auto|].
  destruct (split_at_first f l) as [[[a' x'] b']|]; [|discriminate]. injection H as <- <- <-. destruct (IH _ _ _ eq_refl) as [-> F]. auto.
Qed.
Lemma lined_drop top x rest : lined (top ++ x :: rest) -> (exists n v, rt x = KParent n v) ->
  lined (top ++ rest) /\ forall y, last_opt top = Some y -> ~ item (rt y).
Proof.
  intros L (n & v & R). induction top as [|b top IH]; [split; [apply L|discriminate]|]. cbn [app lined] in L. destruct L as [L1 L2].
  destruct (IH L2) as [H1 H2]. destruct top as [|c top].
  - split.
    + cbn. split; [|exact H1]. intros K. specialize (L1 K). cbn in L1. rewrite R in L1. destruct (rt b); try now destruct K.
      * destruct L1 as (lv & E & _). discriminate.
      * destruct L1 as [E _]. discriminate.
    + intros y [= <-] K. specialize (L1 K). cbn in L1. rewrite R in L1. destruct (rt b); try now destruct K.
      * destruct L1 as (lv & E & _). discriminate.
      * destruct L1 as [E _]. discriminate.
  - split; [split; [exact L1|exact H1]|]. intros y. rewrite last_opt_cons. apply H2.
Qed.
Lemma Forall2_split {A B} (R : A -> B -> Prop) l : forall a b, Forall2 R l (a ++ b) -> exists a' b', l = a' ++ b' /\ Forall2 R a' a /\ Forall2 R b' b.
Proof.
  intros a. revert l. induction a as [|x a IH]; intros l b F; [exists [], l; auto|]. inversion F as [|y ? l' ? R1 F']. subst.
  destruct (IH _ _ F') as (a' & b' & -> & F1 & F2). exists (y :: a'), b'. repeat split; auto.
Qed.
Lemma Forall2_len {A B} (R : A -> B -> Prop) l k : Forall2 R l k -> List.length l = List.length k.
Proof. intros F. induction F; cbn; auto. Qed.
Lemma Forall2_last {A B} (R : A -> B -> Prop) l k : Forall2 R l k -> forall x, last_opt l = Some x -> exists y, last_opt k = Some y /\ R x y.
Proof.
  intros F. induction F as [|x y l k H F IH]; [discriminate|]. intros z E. destruct l as [|x' l], k as [|y' k]; try (inversion F; fail).
  - injection E as <-. exists y. auto.
  - rewrite (last_opt_cons x) in E. rewrite (last_opt_cons y). apply IH, E.
Qed.
Lemma s_parent t p : dl = false -> Good p -> post (parse_delimited_parent_block t p) Good.
Proof.
  intros Hd G. unfold parse_delimited_parent_block. cbv zeta. apply post_any. intros block0 P0.
  assert (exists n v, rt block0 = KParent n v) as R0 by (revert P0; unfold parent_from_token; destruct (ttype t); try discriminate; intros [= <-]; cbn; eauto).
  assert (WB block0) as W0 by (revert P0; unfold parent_from_token; destruct (ttype t); try discriminate; intros [= <-]; apply WB_nil). clear P0.
  change (p_title (set_dangling None p)) with (p_title p).
  assert (exists block p1, (match p_title p with Some ti => (set_block_title block0 ti, set_title None (set_dangling None p)) | None => (block0, set_dangling None p) end) = (block, p1)
    /\ Good p1 /\ WB block /\ exists n v, rt block = KParent n v) as (block & p1 & -> & G1 & W1 & n & v & R1).
  { destruct (p_title p); do 2 eexists; (split; [reflexivity|]); (split; [exact G|]); [|auto]. unfold WB, rt in *. rewrite set_title_skel. auto. }
  clear p G block0 R0 W0.
  assert (forall ll, post (push_block_to_stack block (set_open_lines ll p1)) Good) as Open.
  { intros ll. eapply post_mono; [apply (s_push block (set_open_lines ll p1) W1); [rewrite R1; cbn; auto|exact G1]|]. cbv beta. tauto. }
  destruct (split_at_first is_parent (p_bstack p1)) as [[[above matched] below]|] eqn:Es; [|apply Open].
  destruct (parent_eqb matched block); [|apply Open]. clear Open.
  apply split_first_app in Es as [Es Hm].
  assert (exists n v, rt matched = KParent n v) as Rm by (destruct matched as [[]]; try discriminate; cbn; eauto).
  destruct G1 as (A & B & C & D). rewrite Es in B, C. apply lined_drop in B as [B1 B2]; [|exact Rm].
  apply Forall_app in C as [C1 C2]. inversion C2 as [|? ? Wm C3]. subst.
  assert (Good (set_bstack (above ++ below) p1)) as G2.
  { split; [exact A|split; [exact B1|split; [apply Forall_app; auto|exact D]]]. }
  eapply post_bind; [apply s_inlines, G2|]. cbv beta. intros p2 (G3 & _ & _ & H).
  assert (exists top rest, p_bstack p2 = top ++ rest /\ List.length rest = List.length below /\ (forall y, last_opt top = Some y -> ~ item (rt y))) as (top & rest & E2 & Len & Top).
  { destruct H as [(b & Hb & Eb & _)|F].
    - cbn in Eb. exists (b :: above), below. split; [exact Eb|split; [reflexivity|]]. intros y Y. destruct above; [injection Y as <-; exact Hb|rewrite last_opt_cons in Y; now apply B2].
    - cbn in F. apply Forall2_split in F as (a' & b' & E & F1 & F2). exists a', b'. split; [exact E|split; [now apply Forall2_len in F2|]].
      intros y Y. destruct (Forall2_last _ _ _ F1 _ Y) as (z & Z & ->). now apply B2. }
  destruct (p_open_lines p2) as [|ln lns]; [apply post_err|]. apply post_any. intros _ _.
  change (p_bstack (set_open_lines lns p2)) with (p_bstack p2).
  destruct G3 as (A3 & L3 & F3 & D3). rewrite E2 in *. rewrite <- Len, app_length.
  destruct (_ <? _); [apply post_panic|].
  replace (List.length top + List.length rest - List.length rest) with (List.length top) by lia.
  rewrite firstn_app, Nat.sub_diag, firstn_all, firstn_O, app_nil_r.
  rewrite skipn_app, Nat.sub_diag, skipn_all. cbn [app skipn].
  apply Forall_app in F3 as [F3 F4].
  destruct matched as [h m k loc].
  apply post_any. intros b Pb.
  apply (push_blocks_W _ Hd None) in Pb as [Wb Rb]; [| exact Rm| exact Wm |now apply Forall_rev|now apply (chain_rev top rest)|discriminate].
  eapply post_bind with (R := fun b' => WB b' /\ ~ item (rt b')).
  { destruct Rm as (n' & v' & Rm). change (rt b = rt (Blk h m k loc)) in Rb. destruct (is_table b).
    - intros b' T. apply table_info_skel in T. split; [unfold WB; now rewrite T|]. rewrite (rt_skel _ _ T), Rb, Rm. cbn. auto.
    - apply post_ok. split; [exact Wb|]. rewrite Rb, Rm. cbn. auto. }
  intros b' [Wb' Ib'].
  eapply post_bind; [apply (s_push b' (set_bstack rest (set_open_lines lns p2)) Wb' Ib')|].
  - split; [exact A3|split; [|split; [exact F4|exact D3]]]. cbn [p_bstack set_bstack]. clear -L3. induction top; [exact L3|apply IHtop, L3].
  - cbv beta. intros q [(A4 & L4 & F5 & D4) _]. apply post_ok. split; [reflexivity|]. split; [exact L4|split; [exact F5|exact D4]].
Qed.

(** ** The dispatch *)
Lemma s_quote_verse t p : dl = false -> Good p -> post (parse_quote_verse t p) Good.
Proof.
  intros Hd G. unfold parse_quote_verse. destruct (p_meta p) as [m|].
  - destruct (m_type m) as [[]|]; solve [now apply s_parent|now apply s_leaf].
  - destruct (p_open_type p); [now apply s_leaf|now apply s_parent].
Qed.
Lemma s_comment t p : Good p -> post (parse_comment_block t p) Good.
Proof.
  intros G. unfold parse_comment_block. destruct (p_open_type p) as [ty|]; [|now apply s_leaf].
  assert (Good (set_open_type None (set_force_new true (set_bstack (tl (p_bstack p)) (set_istack [] p))))) as K.
  { destruct G as (A & B & C & D). split; [exact A|]. cbn. destruct (p_bstack p); [auto|]. cbn in *. inversion C. subst. split; [apply B|auto]. }
  destruct ty; apply post_ok; assumption.
Qed.
Lemma post_safe p m : safe p m -> Good p -> post m Good.
Proof. intros H G q Q. now destruct (H G q Q). Qed.
Definition fine (t : token) : Prop :=
  ttype t <> TBlockContinuation /\ ttype t <> TInclude /\ ttype t <> TTableCell
  /\ (ttype t = TDescriptionListMarker -> dl = true) /\ (parent_delimiter (ttype t) = true -> dl = false)
  /\ (ttype t = TUnorderedListItem -> marks_item LUnordered (trim (lexeme t)))
  /\ (ttype t = TOrderedListItem \/ ttype t = TCodeCalloutListItem -> marks_item LOrdered (trim (lexeme t))).
Lemma s_dispatch w t p : fine t -> (list_marker (ttype t) = true -> p_in_line p = false) -> Good p -> post (dispatch w t p) Good.
Proof.
  intros (F1 & F2 & F3 & F4 & F5 & F6 & F7) L G.
  assert (forall m, calms p m -> post m Good) as Calm by (intros m H; apply (post_safe p); [now apply safe_calm|exact G]).
  assert (forall (m : result pstate) (Q : pstate -> Prop), post m (fun q => Good q /\ Q q) -> post m Good) as Fst by (intros m Q H q E; now destruct (H q E)).
  unfold dispatch. destruct (ttype t) eqn:T; try congruence;
  try (apply post_ok; exact G); try apply post_panic;
  try solve [apply Calm; first [apply c_attribute|apply c_block_attributes|apply c_inline_attributes|apply c_text|apply c_charref|apply c_reference|apply c_xref|apply c_footnote|apply c_inline_image|apply c_callout|cl; apply c_span]];
  try solve [eapply Fst; first [apply s_title|apply s_headings]; exact G];
  try solve [apply (post_safe p); [first [apply s_break|apply s_image|apply s_admonition]|exact G]];
  try solve [apply s_parent; [now apply F5|exact G]]; try solve [apply s_leaf; exact G].
  - eapply Fst, s_newline, G.
  - apply s_quote_verse; [now apply F5|exact G].
  - apply s_comment, G.
  - apply (post_safe p); [apply s_ordered; [apply F7; auto|now apply L]|exact G].
  - apply (post_safe p); [apply s_unordered; [now apply F6|now apply L]|exact G].
  - apply (post_safe p); [apply s_dlist; now apply F4|exact G].
  - apply (post_safe p); [apply s_ordered; [apply F7; auto|now apply L]|exact G].
  - apply s_macro_close, G.
  - destruct (p_header p); [apply (post_safe p); [apply s_header|exact G]|apply post_ok, G].
Qed.

(** ** The loop *)
Definition verbatim (ty : token_type) : bool :=
  match ty with
  | TQuoteVerseBlock | TPassthroughInlineMacro | TPassthroughBlock | TLiteralBlock | TCommentBlock | TSourceBlock => true
  | _ => false
  end.
Definition ready (p : pstate) : Prop := p_in_line p = false \/ exists ty, p_open_type p = Some ty /\ verbatim ty = true.
Lemma s_token w f t p : fine t -> (list_marker (ttype t) = true -> ready p) -> Good p ->
  post (token_into w f t p) (fun q => Good q /\ (ttype t = TNewLineChar -> ready q)).
Proof.
  intros F R G.
  assert (token_into w f t p = (let* p :=
    match p_header p with
    | Some _ => if can_be_in_document_header t then Ok p else check_and_move_header w p
    | None => Ok p
    end in
  match pre_dispatch t p with
  | PreText => parse_text t p
  | PrePass => pass_text_through t p
  | PreGo => dispatch w t p end)) as ->.
  { destruct F as (_ & F2 & F3 & _). destruct f; cbn [token_into]; destruct (match p_header p with Some _ => _ | None => _ end) as [x| | | |]; cbn [bind]; try reflexivity;
    (destruct (pre_dispatch t x); try reflexivity; destruct (ttype t); try reflexivity; congruence). }
  eapply post_bind with (R := fun q => Good q /\ keep p q).
  { destruct (p_header p); [|apply post_ok; split; [exact G|apply keep_refl]]. destruct (can_be_in_document_header t); [apply post_ok; split; [exact G|apply keep_refl]|now apply s_header]. }
  intros q [Gq Kq].
  assert (list_marker (ttype t) = true -> ready q) as Rq.
  { intros M. destruct Kq as [K1 K2]. unfold ready. rewrite K1, K2. now apply R. }
  clear p R G Kq.
  assert (forall m, calms q m -> pre_dispatch t q <> PreGo -> post m (fun r => Good r /\ (ttype t = TNewLineChar -> ready r))) as Held.
  { intros m C P r E. apply C in E. split; [exact (calm_good _ _ E Gq)|]. intros _. right. destruct E as (_ & _ & _ & _ & ->).
    unfold pre_dispatch in P. destruct (p_open_type q) as [ty|]; [|now destruct P]. exists ty. split; [reflexivity|]. destruct ty; try reflexivity; now destruct P. }
  destruct (pre_dispatch t q) eqn:P.
  - apply Held; [apply c_text|discriminate].
  - apply Held; [apply c_pass|discriminate].
  - clear Held. intros r E. split.
    + revert r E. apply s_dispatch; [exact F| |exact Gq]. intros M. destruct (Rq M) as [L|(ty & Eo & V)]; [exact L|]. exfalso.
      unfold pre_dispatch in P. rewrite Eo in P. unfold is_inline in P. destruct (ttype t); try discriminate; destruct ty; try discriminate.
    + intros T. left. unfold dispatch in E. rewrite T in E. destruct (s_newline w t q Gq r E) as [_ [K _]]. exact K.
Qed.
Lemma s_loop w f ts : forall p, Forall fine ts -> Good p ->
  (match ts with t :: _ => list_marker (ttype t) = true -> ready p | [] => True end) ->
  (forall pre ty post, map ttype ts = pre ++ ty :: post -> list_marker ty = true -> pre = [] \/ exists pre', pre = pre' ++ [TNewLineChar]) ->
  post (parse_loop w f ts p) Good.
Proof.
  induction ts as [|t ts IH]; intros p F G R H; [apply post_ok, G|]. cbn [parse_loop]. inversion F as [|? ? Ft Fs]. subst.
  eapply post_bind; [apply (s_token w f t p Ft R G)|]. cbv beta. intros q [Gq Rq]. apply IH; [exact Fs|exact Gq| |].
  - destruct ts as [|t' ts]; [exact I|]. intros M. destruct (H [ttype t] (ttype t') (map ttype ts) eq_refl M) as [E|[pre' E]]; [discriminate|].
    destruct pre' as [|? [|]]; try discriminate. injection E as E. now apply Rq.
  - intros pre ty post E M. destruct (H (ttype t :: pre) ty post) as [K|[pre' K]]; [cbn; now rewrite E|exact M|discriminate|].
    destruct pre' as [|x pre']; [injection K as _ K; auto|]. injection K as _ K. right. eauto.
Qed.

(** ** Documents *)
Lemma home_belongs a b : home (rt a) (rt b) -> belongs (b_head a) (b_head b).
Proof.
  destruct a as [ha ? ? ?], b as [hb ? ? ?]. unfold rt. cbn. destruct hb; cbn; try (destruct ha; tauto).
  - intros (v & E & M). exists v. split; [|exact M]. destruct ha; try discriminate. now injection E as ->.
  - intros [E _]. destruct ha; try discriminate. reflexivity.
Qed.
Lemma WB_within b x : within b x -> WB x -> WB b.
Proof.
  intros H. induction H as [|b h m k loc c Hin W IH]; [auto|]. intros K. apply IH. unfold WB in *. cbn in K. inversion K as [? ? _ Fk]. subst.
  rewrite Forall_forall in Fk. apply Fk. now apply in_map.
Qed.
Lemma GA_proper a : GA a -> lists_proper a.
Proof.
  intros G. split.
  - eapply Forall_impl; [|exact G]. intros b [_ I]. destruct b as [[]]; cbn in *; auto.
  - intros b (x & Hx & W). unfold GA in G. rewrite Forall_forall in G. destruct (G x Hx) as [Wx _]. apply (WB_within b x W) in Wx.
    destruct b as [h m k loc]. unfold WB in Wx. cbn in Wx |- *. inversion Wx as [? ? Fk _]. subst. rewrite Forall_forall in *. intros c Hc.
    apply (home_belongs (Blk h m k loc) c). apply Fk. now apply in_map.
Qed.
Lemma lists_parse w f s p a q : Forall fine (fst s) -> p_bstack p = [] -> p_in_cont p = false -> p_in_line p = false ->
  (forall pre ty post, map ttype (fst s) = pre ++ ty :: post -> list_marker ty = true -> pre = [] \/ exists pre', pre = pre' ++ [TNewLineChar]) ->
  parse_with w f s p = Ok (a, q) -> lists_proper a.
Proof.
  intros F B C L H P. unfold parse_with in P. apply bind_ok in P as (p1 & P1 & P). apply bind_ok in P as (u & _ & P).
  apply bind_ok in P as (p2 & P2 & P). apply bind_ok in P as (p3 & P3 & P). assert (a = asg_consolidate (p_asg p3)) as -> by congruence.
  assert (Good (set_asg new_asg p)) as G0.
  { split; [exact C|]. cbn. rewrite B. split; [exact I|split; [constructor|constructor]]. }
  apply s_loop in P1; [|exact F|exact G0|destruct (fst s); [exact I|intros _; left; exact L]|exact H].
  apply s_add_inlines in P2 as [G2 _]; [|exact P1]. apply s_flush in P3 as [(_ & _ & _ & G3) _]; [|exact G2].
  apply GA_proper. unfold GA in *. cbn. apply Forall_map. eapply Forall_impl; [|exact G3]. cbv beta. intros b [W I].
  unfold WB, rt in *. rewrite skel_map_inlines. auto.
Qed.
End Lists.

(** ** Markers *)
Lemma drop_while_snoc {A} (f : A -> bool) x l : f x = false -> exists l', drop_while f (l ++ [x]) = l' ++ [x].
Proof.
  intros H. induction l as [|y l IH]; cbn; [exists []; now rewrite H|]. destruct (f y); [exact IH|]. now exists (y :: l).
Qed.
Lemma trim_lt r : exists r', trim ("<" :: r) = "<" :: r'.
Proof.
  unfold trim. destruct (chars_head "<" r) as (w & ws & ->).
  assert (is_ws ("<" :: w) = false) as H by (destruct w as [|a [|b w]]; reflexivity).
  cbn [drop_while]. rewrite H. cbn [rev]. destruct (drop_while_snoc is_ws ("<" :: w) (rev ws) H) as [l' ->].
  rewrite rev_app_distr. cbn. eauto.
Qed.
Lemma marker_lexeme src files t : In t (fst (scan_stream src files)) ->
  (ttype t = TUnorderedListItem -> marks_item LUnordered (trim (lexeme t)))
  /\ (ttype t = TOrderedListItem \/ ttype t = TCodeCalloutListItem -> marks_item LOrdered (trim (lexeme t))).
Proof.
  intros Hin. destruct (stream_yields src files) as [sc Hy]. apply in_split in Hin as (pre & post & Ets). rewrite Ets in Hy.
  destruct (yields_split _ _ _ _ Hy _ _ _ eq_refl) as (sc1 & sc2 & Y1 & N & Y2). clear Hy Ets Y1 Y2.
  pose proof (next_starts _ _ _ N) as St.
  apply next_some in N as [[Hlt [P | T]] | Ee].
  - destruct P as (adv & lit & _ & _ & _ & _ & P5 & _ & _ & P8 & _ & _ & _ & _ & _ & _ & P15 & _).
    destruct P15 as [_ Q]. destruct Q as (_ & _ & _ & _ & _ & _ & _ & _ & _ & _ & Q1 & Q2 & _); [lia|].
    split; [intros E; rewrite P8; apply Q1 in E as [_ ->]; reflexivity|]. intros [E|E].
    + rewrite P8. apply Q2 in E as [_ ->]. left. reflexivity.
    + unfold started in St. rewrite E in St. destruct St as (p & r & [<-|[]] & Er). rewrite P8. unfold lex. rewrite Er.
      destruct (sc_cur sc2 - sc_cur sc1) eqn:Ed; [lia|]. cbn. destruct (trim_lt (firstn n r)) as [r' ->]. right. eauto.
  - destruct T as ([T|T] & _); split; intros E; rewrite T in E; first [discriminate|destruct E; discriminate].
  - destruct Ee as (_ & _ & -> & _). split; intros E; first [discriminate|destruct E; discriminate].
Qed.

Theorem lists_hold : forall w fuel origin resolve src a,
  plain_lists (map ttype (fst (scan_stream src []))) ->
  parse w fuel origin resolve src = Ok a -> lists_proper a.
Proof.
  intros w fuel origin resolve src a (H1 & H2 & H3 & H4 & H5) P.
  unfold parse in P. apply bind_ok in P as ([a' q] & P & E). assert (a' = a) as -> by congruence. clear E.
  set (dl := existsb (tt_eqb TDescriptionListMarker) (map ttype (fst (scan_stream src [])))).
  assert (forall ty, tt_eqb ty ty = true) as Eqr by (intros ty; destruct ty; reflexivity).
  assert (forall a b, tt_eqb a b = true -> a = b) as Eqe by (intros x y; destruct x, y; try reflexivity; discriminate).
  eapply (lists_parse dl); [| | | |exact H5|exact P]; try reflexivity.
  apply Forall_forall. intros t Ht. pose proof (in_map ttype _ _ Ht) as Hm. destruct (marker_lexeme src [] t Ht) as [M1 M2].
  unfold fine. repeat split; auto; try (intros E; rewrite E in Hm; contradiction).
  - intros E. unfold dl. apply existsb_exists. exists TDescriptionListMarker. split; [now rewrite E in Hm|reflexivity].
  - intros E. unfold dl. destruct (existsb _ _) eqn:Ex; [|reflexivity]. exfalso. apply existsb_exists in Ex as (ty & Hin & Et). apply Eqe in Et. subst ty.
    rewrite (H4 Hin _ Hm) in E. discriminate.
Qed.

(** a check, for examples *)
Fixpoint after_newline (prev : option token_type) (l : list token_type) : bool :=
  match l with
  | [] => true
  | ty :: r =>
      (if list_marker ty then match prev with None => true | Some x => tt_eqb x TNewLineChar end else true)
      && after_newline (Some ty) r
  end.
Definition plain_check (l : list token_type) : bool :=
  negb (existsb (tt_eqb TBlockContinuation) l) && negb (existsb (tt_eqb TInclude) l) && negb (existsb (tt_eqb TTableCell) l)
  && (negb (existsb (tt_eqb TDescriptionListMarker) l) || negb (existsb parent_delimiter l))
  && after_newline None l.
Lemma not_exists ty l : negb (existsb (tt_eqb ty) l) = true -> ~ In ty l.
Proof.
  intros H K. apply negb_true_iff in H. assert (existsb (tt_eqb ty) l = true) as E; [|congruence].
  apply existsb_exists. exists ty. split; [exact K|]. destruct ty; reflexivity.
Qed.
Lemma after_newline_ok l : forall prev pre ty post, after_newline prev l = true -> l = pre ++ ty :: post -> list_marker ty = true ->
  (pre = [] /\ match prev with None => True | Some x => x = TNewLineChar end) \/ exists pre', pre = pre' ++ [TNewLineChar].
Proof.
  induction l as [|x l IH]; intros prev pre ty post H E M; [destruct pre; discriminate|]. cbn in H. apply andb_true_iff in H as [H1 H2].
  destruct pre as [|y pre].
  - injection E as <- <-. rewrite M in H1. left. split; [reflexivity|]. destruct prev as [z|]; [destruct z; try discriminate; reflexivity|exact I].
  - injection E as <- E. destruct (IH (Some x) pre ty post H2 E M) as [[-> ->]|[pre' ->]]; right; [exists []; reflexivity|exists (x :: pre'); reflexivity].
Qed.
Lemma plain_check_ok l : plain_check l = true -> plain_lists l.
Proof.
  unfold plain_check. rewrite !andb_true_iff. intros ((((H1 & H2) & H3) & H4) & H5).
  split; [now apply not_exists|]. split; [now apply not_exists|]. split; [now apply not_exists|]. split.
  - intros K ty Hin. apply orb_true_iff in H4 as [H4|H4]; [now apply not_exists in H4|].
    apply negb_true_iff in H4. destruct (parent_delimiter ty) eqn:E; [|reflexivity].
    assert (existsb parent_delimiter l = true) by (apply existsb_exists; eauto). congruence.
  - intros pre ty post E M. destruct (after_newline_ok l None pre ty post H5 E M) as [[-> _]|H]; auto.
Qed.
