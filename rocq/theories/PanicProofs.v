(** * The parser on orderly token sequences *)
From Verif Require Import Base World Location Token Scanner Meta Inline Block Asg Parser ScanLemmas GraphLemmas SpecPanic.
From Verif Require DocGraph MetaProofs.
Local Open Scope char_scope.
Local Open Scope nat_scope.

Local Arguments reconcile : simpl never.
Local Arguments token_locations : simpl never.
Local Arguments dec : simpl never.
Local Arguments bs : simpl never.

(** ** Results that are a value or an error *)
Definition fine {E A} (m : res E A) (Q : A -> Prop) : Prop :=
  match m with Ok x => Q x | Err _ => True | _ => False end.
Definition clean {E A} (m : res E A) : Prop := fine m (fun _ => True).
Lemma fine_bind {E A B} (m : res E A) (k : A -> res E B) Q R : fine m Q -> (forall x, Q x -> fine (k x) R) -> fine (bind m k) R.
Proof. destruct m; cbn; auto. Qed.
Lemma fine_mono {E A} (m : res E A) (Q R : A -> Prop) : fine m Q -> (forall x, Q x -> R x) -> fine m R.
Proof. destruct m; cbn; auto. Qed.
Lemma clean_bind {E A B} (m : res E A) (k : A -> res E B) R : clean m -> (forall x, fine (k x) R) -> fine (bind m k) R.
Proof. intros H K. eapply fine_bind; [exact H|auto]. Qed.

(** ** Blocks *)
Lemma upd_last_clean {A E} (f : A -> res E A) l : (forall x, In x l -> clean (f x)) -> clean (upd_last f l).
Proof.
  induction l as [|x l IH]; intros H; [exact I|]. cbn [upd_last]. destruct l as [|y l].
  - apply clean_bind; [apply H; now left|intros; exact I].
  - apply clean_bind; [apply IH; intros z Z; apply H; now right|intros; exact I].
Qed.
Lemma push_inline_clean b i : clean (push_inline b i).
Proof. destruct b as [[] ? ? ?]; exact I. Qed.
Lemma push_inlines_clean l : forall b, clean (push_inlines b l).
Proof. induction l as [|i l IH]; intros b; [exact I|]. cbn [push_inlines]. apply clean_bind; [apply push_inline_clean|exact IH]. Qed.
Lemma push_block_clean b : forall nb, clean (push_block b nb).
Proof.
  induction b as [h m k loc IH] using block_ind2. intros nb. cbn [push_block]. apply clean_bind; [|intros; exact I]. rewrite Forall_forall in IH.
  destruct h; try exact I.
  - destruct (is_section nb); [|exact I]. destruct (last_opt k); [|exact I]. destruct (takes_block _ _); [|exact I]. apply upd_last_clean. intros x X. now apply IH.
  - destruct (is_list_item nb).
    + destruct (last_opt k); [|exact I]. destruct (is_list _); [|exact I]. apply upd_last_clean. intros x X. apply clean_bind; [now apply IH|intros; exact I].
    + destruct (_ && _); exact I.
Qed.
Lemma push_blocks_clean l : forall b, clean (push_blocks b l).
Proof. induction l as [|x l IH]; intros b; [exact I|]. cbn [push_blocks]. apply clean_bind; [apply push_block_clean|exact IH]. Qed.
Lemma asg_push_clean a b : clean (asg_push_block a b).
Proof.
  unfold asg_push_block. apply clean_bind; [|intros; exact I]. destruct (is_section _); [|exact I]. destruct (last_opt _); [|exact I].
  destruct (takes_block _ _); [|exact I]. apply upd_last_clean. intros; apply push_block_clean.
Qed.
Definition leafy (b : block) : Prop := match b with Blk (HLeaf _ _ _ _) _ _ _ => True | _ => False end.
Lemma push_inlines_leafy l : forall b, leafy b -> fine (push_inlines b l) leafy.
Proof.
  induction l as [|i l IH]; intros b B; [exact B|]. cbn [push_inlines]. destruct b as [[] ? ? ?]; try contradiction. cbn. apply IH. exact I.
Qed.
Lemma add_metadata_fine b m : fine (add_metadata b m) (fun b' => leafy b -> leafy b').
Proof. unfold add_metadata. destruct (meta_is_empty m); [cbn; auto|]. destruct b as [[] ? ? ?]; cbn; auto. Qed.

(** ** Locations *)
Lemma ends_of_ne l : l <> [] -> ends_of l <> [].
Proof. destruct l as [|x [|y l]]; cbn; [congruence|discriminate|discriminate]. Qed.
Lemma reconcile_ne a b : a <> [] -> reconcile a b <> [].
Proof.
  unfold reconcile. destruct b as [|x b]; [auto|]. intros A. apply ends_of_ne.
  intros E. assert (List.length (loc_sort (a ++ x :: b)) = List.length (a ++ x :: b)).
  { clear. induction (a ++ x :: b) as [|y l IH]; [reflexivity|]. cbn. rewrite <- IH. generalize (loc_sort l). clear.
    intros l. induction l as [|z l IH]; [reflexivity|]. cbn. destruct (loc_leb y z); cbn; auto. }
  rewrite E in H. destruct a; [congruence|discriminate].
Qed.
Lemma locations_ne t : token_locations t <> [].
Proof. discriminate. Qed.

(** ** The state between tokens *)
Definition good (i : inline) : Prop := inline_locs i <> [] /\ is_open i = false /\ is_footnote i = false.
Definition refok (i : inline) : Prop :=
  match i with
  | IRef _ _ l _ _ => match last_opt l with None => True | Some x => is_literal x = true end
  | _ => True
  end.
Definition is_span (i : inline) : bool := match i with ISpan _ _ _ _ _ _ => true | _ => false end.
Definition topok (l : list inline) : Prop := match l with i :: _ => is_span i = false | [] => True end.
Definition bad_type (m : metadata) : bool :=
  match m_type m with Some AQuote | Some AVerse | Some ALines => true | _ => false end.
Definition metaok (m : option metadata) : Prop := match m with Some m => bad_type m = false | None => True end.

Record K (p : pstate) : Prop := mkK {
  k_off : p_offset p = 0%Z;
  k_cont : p_in_cont p = false;
  k_span : p_in_span p = false;
  k_in : Forall good (p_istack p);
  k_ref : p_close_parent p = false -> Forall refok (p_istack p);
  k_meta : metaok (p_meta p) }.
Lemma K_view p q :
  p_offset q = p_offset p -> p_in_cont q = p_in_cont p -> p_in_span q = p_in_span p -> p_istack q = p_istack p ->
  p_close_parent q = p_close_parent p -> p_meta q = p_meta p -> K p -> K q.
Proof. intros A B C D E F []. split; rewrite ?A, ?B, ?C, ?D, ?E, ?F; assumption. Qed.
Ltac kv := first [assumption | match goal with H : K ?p |- K ?q => exact (K_view p q eq_refl eq_refl eq_refl eq_refl eq_refl eq_refl H) end].
Lemma K_unmeta p : K p -> K (set_meta None p).
Proof. intros []. split; cbn; auto. Qed.
Lemma K_noinl p : K p -> K (set_istack [] p).
Proof. intros []. split; cbn; auto. Qed.
(** the inlines are added to or dropped *)
Definition R (p q : pstate) : Prop :=
  K q /\ p_open_type q = p_open_type p /\ (p_istack q = p_istack p \/ p_istack q = []).
Lemma R_refl p : K p -> R p p.
Proof. intros H. split; [exact H|split; auto]. Qed.
Lemma R_trans p q r : R p q -> R q r -> R p r.
Proof. intros (A & B & C) (D & E & F). split; [exact D|]. split; [congruence|]. destruct F as [F|F]; [rewrite F; exact C|now right]. Qed.
Lemma R_bind p (m : result pstate) (k : pstate -> result pstate) : fine m (R p) -> (forall q, R p q -> fine (k q) (R q)) -> fine (bind m k) (R p).
Proof. intros H L. eapply fine_bind; [exact H|]. intros q Q. eapply fine_mono; [apply L; exact Q|]. intros r. now apply R_trans. Qed.
Ltac rv := split; [kv|split; [reflexivity|left; reflexivity]].

Definition topleaf (p : pstate) : Prop := match p_bstack p with b :: _ => leafy b | [] => False end.

Lemma f_push_stack b p : K p ->
  fine (push_block_to_stack b p) (fun q => R p q /\ p_istack q = p_istack p /\ p_header q = p_header p /\ p_meta q = None
    /\ exists b', p_bstack q = b' :: p_bstack p /\ (leafy b -> leafy b')).
Proof.
  intros H. pose proof H as []. unfold push_block_to_stack. rewrite k_cont0. cbn [andb].
  destruct (p_meta p) as [m|] eqn:E.
  - eapply fine_bind; [apply add_metadata_fine|]. intros b' B. cbn. split; [|eauto 6].
    split; [|split; [reflexivity|left; reflexivity]]. apply K_unmeta in H. kv.
  - cbn. split; [rv|eauto 8].
Qed.
Lemma r_push_stack b p : K p -> fine (push_block_to_stack b p) (R p).
Proof. intros H. eapply fine_mono; [now apply f_push_stack|]. now intros q (Q & _). Qed.

Lemma open_none l : Forall good l -> split_at_first is_open l = None.
Proof. induction 1 as [|i l (_ & I & _) _ IH]; [reflexivity|]. cbn. now rewrite I, IH. Qed.
Lemma f_dangling p : Forall good (p_istack p) -> handle_dangling_spans p = Ok p.
Proof. intros H. unfold handle_dangling_spans. now rewrite open_none. Qed.

Definition inlined (p q : pstate) : Prop :=
  R p q /\ p_istack q = [] /\ List.length (p_bstack p) <= List.length (p_bstack q)
  /\ (p_header p = None -> p_header q = None)
  /\ (p_header p = None -> p_meta p = None -> p_meta q = None /\ (topleaf p -> topleaf q)).
Lemma f_paragraph p : K p -> p_istack p <> [] -> p_header p = None -> fine (new_paragraph p) (inlined p).
Proof.
  intros H N Hd. pose proof H as []. unfold new_paragraph. cbn zeta.
  eapply fine_bind; [apply push_inlines_leafy; exact I|]. intros para L. cbn [p_in_cont set_istack p_bstack p_meta].
  rewrite k_cont0. cbn [andb].
  assert (G : K (set_istack [] p)) by now apply K_noinl.
  assert (forall b, leafy b -> fine (push_block_to_stack b (set_istack [] p)) (inlined p)) as Push.
  { intros b B. eapply fine_mono; [now apply f_push_stack|]. intros q ((A & O & _) & E & F & M & b' & Eb & Lb).
    split; [split; [exact A|split; [exact O|right; exact E]]|]. split; [exact E|]. split; [rewrite Eb; cbn; lia|]. split; [now rewrite F|].
    intros _ _. split; [exact M|]. intros _. unfold topleaf. rewrite Eb. auto. }
  destruct (p_meta p) as [bm|] eqn:Em; [|now apply Push].
  destruct (rev (p_istack p)) as [|i r] eqn:Er; [destruct N; now rewrite <- (rev_involutive (p_istack p)), Er|].
  assert (good i) as [Li _]. { rewrite Forall_forall in k_in0. apply k_in0. rewrite in_rev, Er. now left. }
  destruct (inline_locs i) as [|l0 ls]; [congruence|]. cbn [bind].
  match goal with |- fine (if ?b then _ else _) _ => destruct b end; [|now apply Push].
  apply clean_bind; [apply push_block_clean|]. intros qb. eapply fine_mono; [now apply f_push_stack|].
  intros q ((A & O & _) & E & F & M & b' & Eb & _).
  split; [split; [exact A|split; [exact O|right; exact E]]|]. split; [exact E|]. split; [rewrite Eb; cbn; lia|]. split; [now rewrite F|].
  intros _ C. congruence.
Qed.
Lemma f_add_inlines p : K p -> fine (add_inlines_to_block_stack p) (inlined p).
Proof.
  intros H. pose proof H as []. unfold add_inlines_to_block_stack.
  destruct (p_istack p) as [|i l] eqn:Ei.
  - cbn. split; [now apply R_refl|]. split; [exact Ei|]. split; [lia|]. split; [auto|]. auto.
  - rewrite k_span0. cbn [bind]. destruct (p_header p) as [h|] eqn:Eh.
    + cbn. split; [split; [apply K_noinl in H; kv|split; [reflexivity|right; reflexivity]]|].
      split; [reflexivity|]. split; [cbn; lia|]. split; congruence.
    + destruct (p_bstack p) as [|b r] eqn:Eb; [apply f_paragraph; [exact H|congruence|exact Eh]|].
      destruct (_ && _); [|apply f_paragraph; [exact H|congruence|exact Eh]].
      assert (fine (push_inlines b (rev (p_istack p))) (fun b' => leafy b -> leafy b')) as P.
      { pose proof (push_inlines_clean (rev (p_istack p)) b) as C. pose proof (push_inlines_leafy (rev (p_istack p)) b) as L.
        destruct (push_inlines b (rev (p_istack p))); cbn in *; auto. }
      eapply fine_bind; [exact P|]. intros b' L. cbn.
      split; [split; [apply K_noinl in H; kv|split; [reflexivity|right; reflexivity]]|].
      split; [reflexivity|]. split; [rewrite Eb; cbn; lia|]. split; [auto|]. intros _ M. split; [exact M|].
      unfold topleaf. rewrite Eb. cbn. exact L.
Qed.
Lemma r_add_inlines p : K p -> fine (add_inlines_to_block_stack p) (R p).
Proof. intros H. eapply fine_mono; [now apply f_add_inlines|]. now intros q (Q & _). Qed.

(** ** Moving blocks *)
Lemma r_asg_push b p : K p -> fine (p_asg_push b p) (R p).
Proof. intros H. unfold p_asg_push. apply clean_bind; [apply asg_push_clean|]. intros a. cbn. rv. Qed.
Lemma f_take b p : K p -> fine (take_metadata b p) (fun bp => R p (snd bp) /\ p_bstack (snd bp) = p_bstack p).
Proof.
  intros H. unfold take_metadata. destruct (p_meta p); [|cbn; split; [now apply R_refl|reflexivity]].
  eapply fine_bind; [apply add_metadata_fine|]. intros b' _. cbn. split; [|reflexivity].
  split; [now apply K_unmeta|split; [reflexivity|left; reflexivity]].
Qed.
Lemma r_stack_or_graph b p : K p -> fine (add_to_block_stack_or_graph b p) (R p).
Proof.
  intros H. unfold add_to_block_stack_or_graph.
  assert (fine (let* (b', p') := take_metadata b p in p_asg_push b' p') (R p)) as G.
  { eapply fine_bind; [now apply f_take|]. intros [b' q] [Q _]. cbn in Q. eapply fine_mono; [apply r_asg_push; apply Q|].
    intros r. now apply R_trans. }
  destruct (p_bstack p) as [|l r]; [exact G|]. destruct (takes_block l b); [|exact G].
  apply clean_bind; [apply push_block_clean|]. intros l'. cbn. rv.
Qed.
Lemma r_last_stack_or_graph p : K p -> fine (add_last_to_block_stack_or_graph p) (R p).
Proof.
  intros H. unfold add_last_to_block_stack_or_graph. destruct (p_bstack p) as [|b r]; [exact I|].
  assert (fine (p_asg_push b (set_bstack r p)) (R p)) as G.
  { eapply fine_mono; [apply r_asg_push; kv|]. intros q. apply R_trans. rv. }
  destruct r as [|l r]; [exact G|]. destruct (takes_block l b); [|exact G].
  apply clean_bind; [apply push_block_clean|]. intros l'. cbn. rv.
Qed.
Lemma f_last_graph p : K p -> fine (add_last_block_to_graph p) (fun q => R p q /\ List.length (p_bstack q) <= List.length (p_bstack p) - 1).
Proof.
  intros H. unfold add_last_block_to_graph. destruct (p_bstack p) as [|b0 r] eqn:E; [cbn; split; [now apply R_refl|rewrite E; cbn; lia]|].
  assert (K (set_bstack r p)) as H' by kv.
  eapply fine_bind; [apply f_take; exact H'|]. intros [b q] [Q S]. cbn in Q, S.
  assert (R p q) as PQ by (eapply R_trans; [|exact Q]; rv).
  assert (fine (p_asg_push b q) (fun r' => R p r' /\ List.length (p_bstack r') <= List.length (b0 :: r) - 1)) as G.
  { unfold p_asg_push. apply clean_bind; [apply asg_push_clean|]. intros a. cbn. rewrite S. split; [|lia].
    eapply R_trans; [exact PQ|]. destruct Q. rv. }
  destruct r as [|l r]; [exact G|]. destruct (takes_block l b); [|exact G].
  apply clean_bind; [apply push_block_clean|]. intros l'. cbn. split; [|lia]. eapply R_trans; [exact PQ|]. destruct Q. rv.
Qed.
Lemma r_flush_blocks n : forall fuel p, K p -> List.length (p_bstack p) <= fuel + n -> fine (flush_blocks fuel n p) (R p).
Proof.
  induction fuel as [|f IH]; intros p H L; cbn [flush_blocks]; destruct (List.length (p_bstack p) <=? n) eqn:E;
    try (now apply R_refl).
  - apply Nat.leb_gt in E. lia.
  - apply Nat.leb_gt in E. eapply fine_bind; [now apply f_last_graph|]. intros q [Q Lq]. eapply fine_mono; [apply IH; [apply Q|lia]|].
    intros r. now apply R_trans.
Qed.
Lemma r_flush n p : K p -> fine (flush_to n p) (R p).
Proof. intros H. apply r_flush_blocks; [exact H|lia]. Qed.
Lemma r_last_item p : K p -> p_bstack p <> [] -> fine (add_last_list_item_to_list p) (fun q => R p q /\ p_istack q = []).
Proof.
  intros H N. unfold add_last_list_item_to_list. assert (K (set_force_new false p)) as H' by kv.
  eapply fine_bind; [now apply f_add_inlines|]. intros q (Q & E & L & _). cbn in L.
  assert (R p q) as PQ by (eapply R_trans; [|exact Q]; rv).
  destruct (p_bstack q) as [|item r]; [destruct (p_bstack p); [congruence|cbn in L; lia]|].
  assert (R q (set_bstack r q)) as S by (destruct Q; rv).
  destruct (_ || _).
  - destruct r as [|l r']; [cbn; split; [eapply R_trans; eassumption|exact E]|].
    apply clean_bind; [apply push_block_clean|]. intros l'. cbn. split; [|exact E]. eapply R_trans; [exact PQ|]. destruct Q; rv.
  - eapply fine_mono; [apply f_push_stack; apply S|]. intros x (X & Ex & _). split; [|now rewrite Ex].
    eapply R_trans; [exact PQ|]. exact (R_trans _ _ _ S X).
Qed.

(** ** Inlines *)
Definition C (p q : pstate) : Prop :=
  K q /\ p_open_type q = p_open_type p /\ p_header q = p_header p /\ p_bstack q = p_bstack p /\ p_meta q = p_meta p.
Lemma C_trans p q r : C p q -> C q r -> C p r.
Proof. intros (_ & A & B & D & E) (F & A' & B' & D' & E'). split; [exact F|]. repeat split; congruence. Qed.
Lemma C_refl p : K p -> C p p.
Proof. intros H. split; [exact H|repeat split]. Qed.
Ltac cv := split; [kv|repeat split; reflexivity].
Lemma K_push i p : K p -> good i -> refok i -> K (push_inline_back i p).
Proof. intros [] G F. split; cbn; auto. Qed.
Lemma K_head i r p : K p -> p_istack p = i :: r -> forall j, good j -> refok j -> K (set_istack (j :: r) p).
Proof.
  intros [] E j G F. rewrite E in *. split; cbn; auto; [inversion k_in0; auto|]. intros X. specialize (k_ref0 X). inversion k_ref0; auto.
Qed.
Lemma good_lit n k v loc : loc <> [] -> good (ILit n k v loc).
Proof. intros H. repeat split. exact H. Qed.
Lemma good_text t : good (lit_text t).
Proof. apply good_lit, locations_ne. Qed.
Lemma good_pass t : good (lit_pass t).
Proof. apply good_lit, locations_ne. Qed.
Lemma good_charref t : good (lit_charref t).
Proof. apply good_lit, locations_ne. Qed.
#[local] Hint Resolve good_text good_pass good_charref locations_ne : pan.

Lemma last_opt_two {A} (a b : A) l : last_opt (a :: b :: l) = last_opt (b :: l).
Proof. unfold last_opt. cbn [rev]. destruct (rev l ++ [b]) eqn:E; [destruct (rev l); discriminate|reflexivity]. Qed.
Lemma last_opt_upd {A} (f : A -> A) l : last_opt (upd_last' f l) = option_map f (last_opt l).
Proof.
  induction l as [|x l IH]; [reflexivity|]. destruct l as [|y l]; [reflexivity|].
  change (upd_last' f (x :: y :: l)) with (x :: upd_last' f (y :: l)). rewrite last_opt_two, <- IH.
  destruct (upd_last' f (y :: l)) eqn:E; [destruct l; discriminate|]. apply last_opt_two.
Qed.
Lemma f_ref_text i t pass : is_span i = false -> is_literal i = false -> (forall l, i <> IBreak l) -> good i -> refok i ->
  fine (ref_text_from_token i t pass) (fun j => good j /\ refok j /\ is_span j = false).
Proof.
  intros S L B G F. destruct i as [| v tg l m loc | |]; try discriminate; [|now destruct (B loc)]. unfold ref_text_from_token. cbn in F.
  destruct (last_opt l) as [x|] eqn:E.
  - destruct x as [| |n k val loc'|]; try discriminate. cbn. split; [exact G|]. split; [|reflexivity]. 
    rewrite last_opt_upd, E. reflexivity.
  - cbn. split; [exact G|]. split; [|reflexivity]. rewrite last_opt_snoc. reflexivity.
Qed.
Lemma f_add_last pass t p : K p -> fine (add_to_last_inline pass t p) (fun q => C p q /\ topok (p_istack q)).
Proof.
  intros H. pose proof H as []. unfold add_to_last_inline.
  assert (good (if pass then lit_pass t else lit_text t) /\ refok (if pass then lit_pass t else lit_text t)) as [G F].
  { destruct pass; split; auto with pan; exact I. }
  assert (C p (set_istack ((if pass then lit_pass t else lit_text t) :: p_istack p) p)
    /\ topok (p_istack (set_istack ((if pass then lit_pass t else lit_text t) :: p_istack p) p))) as P.
  { split; [split; [now apply (K_push _ _ H)|repeat split]|]. destruct pass; reflexivity. }
  destruct (p_istack p) as [|i r] eqn:E; [exact P|].
  destruct i as [v f l m loc o|v tg l m loc|n k v loc|loc].
  - rewrite k_span0. exact P.
  - destruct (p_close_parent p) eqn:Ec; [exact P|]. cbn [negb]. specialize (k_ref0 eq_refl). inversion k_ref0; subst. inversion k_in0; subst.
    eapply fine_bind; [apply f_ref_text; auto; discriminate|]. intros j (Gj & Fj & Sj). cbn. split; [|exact Sj].
    split; [eapply K_head; eauto|repeat split].
  - destruct n; [|exact P]. cbn. split; [|reflexivity]. split; [|repeat split]. inversion k_in0 as [|? ? Gi]; subst.
    eapply K_head; eauto; [|exact I]. apply good_lit, reconcile_ne. apply Gi.
  - exact P.
Qed.
Lemma f_flush_dangling lit p : K p -> good lit -> is_span lit = false -> refok lit ->
  fine (flush_dangling lit p) (fun qb => C p (fst qb) /\ (snd qb = true -> topok (p_istack (fst qb)))).
Proof.
  intros H G S F. unfold flush_dangling. destruct (p_dangling p) as [nl|]; [|cbn; split; [now apply C_refl|discriminate]].
  destruct (p_preserve_nl p).
  - cbn. split; [|intros _; exact S]. split; [|repeat split]. 
    assert (K (push_inline_back lit (push_inline_back (lit_text nl) p))) as X by (apply K_push; [apply K_push; auto with pan; exact I|exact G|exact F]).
    kv.
  - eapply fine_bind; [apply f_add_last; exact H|]. intros q [Q _]. cbn. split; [|discriminate]. eapply C_trans; [exact Q|]. destruct Q; cv.
Qed.
Lemma f_text t p : K p -> fine (parse_text t p) (fun q => C p q /\ topok (p_istack q)).
Proof.
  intros H. unfold parse_text. eapply fine_bind; [apply f_flush_dangling; auto with pan; exact I|]. intros [q b] [Q B]. cbn in Q, B.
  destruct b; [cbn; auto|]. eapply fine_mono; [apply f_add_last; apply Q|]. intros r [Q' T]. split; [eapply C_trans; eassumption|exact T].
Qed.
Lemma f_pass t p : K p -> fine (pass_text_through t p) (fun q => C p q /\ topok (p_istack q)).
Proof.
  intros H. unfold pass_text_through. eapply fine_bind; [apply f_flush_dangling; auto with pan; exact I|]. intros [q b] [Q B]. cbn in Q, B.
  destruct b; [cbn; auto|]. eapply fine_mono; [apply f_add_last; apply Q|]. intros r [Q' T]. split; [eapply C_trans; eassumption|exact T].
Qed.
Lemma f_charref t p : K p -> fine (parse_charref t p) (fun q => C p q /\ topok (p_istack q)).
Proof.
  intros H. unfold parse_charref. eapply fine_bind; [apply f_flush_dangling; auto with pan; exact I|]. intros [q b] [Q B]. cbn in Q, B.
  destruct b; [cbn; auto|]. pose proof Q as [Kq _]. pose proof Kq as [].
  assert (C p (push_inline_back (lit_charref t) q) /\ topok (p_istack (push_inline_back (lit_charref t) q))) as P.
  { split; [|reflexivity]. eapply C_trans; [exact Q|]. split; [apply K_push; auto with pan; exact I|repeat split]. }
  destruct (p_istack q) as [|i r] eqn:E; [exact P|]. destruct i as [v f l m loc o|v tg l m loc|n k v loc|loc]; try exact P.
  - rewrite k_span0. exact P.
  - destruct (p_close_parent q) eqn:Ec; [exact P|]. cbn. split; [|reflexivity]. eapply C_trans; [exact Q|]. split; [|repeat split].
    inversion k_in0 as [|? ? Gi]; subst. eapply K_head; eauto. cbn. rewrite last_opt_snoc. reflexivity.
Qed.

(** ** Texts cut at both ends *)
Lemma ascii_not_cont c : is_ascii c = true -> is_cont c = false.
Proof. destruct c as [[] [] [] [] [] [] [] []]; vm_compute; congruence. Qed.
Lemma printed_boundary s n : printed s -> n <= List.length s -> is_boundary s n = true.
Proof.
  intros P L. unfold is_boundary. destruct (nth_error s n) as [c|] eqn:E.
  - apply nth_error_In, P, ascii_not_cont in E. rewrite E. apply orb_true_r.
  - apply nth_error_None in E. apply Nat.eqb_eq. lia.
Qed.
Lemma printed_slice {E} s a b : printed s -> a <= b -> b <= List.length s -> slice (E := E) s a b = Ok (firstn (b - a) (skipn a s)).
Proof.
  intros P A B. unfold slice. rewrite !printed_boundary by (auto; lia).
  apply Nat.leb_le in A. apply Nat.leb_le in B. now rewrite A, B.
Qed.
Lemma inner_fine {E} n s : enclosed n s -> inner (E := E) s n n = Ok (firstn (List.length s - n - n) (skipn n s)).
Proof.
  intros [L P]. unfold inner. destruct (List.length s <? n) eqn:X; [apply Nat.ltb_lt in X; lia|]. apply printed_slice; [exact P|lia|lia].
Qed.

Lemma f_reference t p : K p -> enclosed 1 (token_text t) -> fine (parse_attribute_reference t p) (fun q => C p q /\ topok (p_istack q)).
Proof. intros H X. unfold parse_attribute_reference. rewrite (inner_fine 1) by exact X. cbn [bind]. now apply f_text. Qed.
Lemma f_push_back i p : K p -> good i -> refok i -> is_span i = false -> C p (push_inline_back i p) /\ topok (p_istack (push_inline_back i p)).
Proof. intros H G F S. split; [split; [now apply K_push|repeat split]|exact S]. Qed.
Lemma K_close p : K p -> K (set_close_parent true p).
Proof. intros []. split; cbn; auto. discriminate. Qed.
Lemma f_xref t p : K p -> enclosed 2 (token_text t) -> fine (parse_cross_reference t p) (fun q => C p q /\ topok (p_istack q)).
Proof.
  intros H X. unfold parse_cross_reference, new_xref. rewrite (inner_fine 2) by exact X. cbn [bind fine].
  split; [|reflexivity]. split; [|repeat split]. apply K_close, K_push; [exact H|repeat split; apply locations_ne|exact I].
Qed.
Lemma push_all_fine l : forall v t k m loc, fine (inline_push_all (IRef v t k m loc) l) (fun j => exists k', j = IRef v t k' m loc).
Proof.
  induction l as [|c l IH]; intros v t k m loc; [cbn; eauto|]. cbn [inline_push_all inline_push bind]. apply IH.
Qed.
Lemma split_first_spec {A} (f : A -> bool) l a x b : split_at_first f l = Some (a, x, b) -> l = a ++ x :: b /\ f x = true.
Proof.
  revert a. induction l as [|y l IH]; intros a E; [discriminate|]. cbn in E. destruct (f y) eqn:F; [injection E as <- <- <-; auto|].
  destruct (split_at_first f l) as [[[a' x'] b']|]; [|discriminate]. injection E as <- -> ->. destruct (IH _ eq_refl) as [-> X]. auto.
Qed.
Lemma f_macro_close t p : K p -> p_open_type p = None ->
  fine (parse_inline_macro_close t p) (fun q => C p q /\ topok (p_istack q)).
Proof.
  intros H O. pose proof H as []. unfold parse_inline_macro_close. rewrite O.
  destruct (split_at_first is_macro (p_istack p)) as [[[a m] b]|] eqn:E; [|now apply f_add_last].
  apply split_first_spec in E as [E M]. rewrite E in k_in0. apply Forall_app in k_in0 as [Ga Gb]. inversion Gb as [|? ? (G1 & G2 & G3) Gb']; subst.
  destruct m as [v f l md loc o|v tg l md loc| |]; try discriminate; [cbn in M, G3; congruence|].
  eapply fine_bind; [apply push_all_fine|]. intros j (k' & ->). cbn. split; [|reflexivity]. split; [|repeat split; exact O].
  split; cbn; auto; [|discriminate]. constructor; [|exact Gb']. repeat split. cbn. now apply reconcile_ne.
Qed.

(** ** Element attributes *)
Lemma split_on_pieces f s x : In x (split_on f s) -> forall c, In c x -> In c s.
Proof.
  revert x. induction s as [|c s IH]; intros x X d D; cbn in X; [destruct X as [<-|[]]; destruct D|].
  destruct (f c); [destruct X as [<-|X]; [destruct D|right; eauto]|].
  destruct (split_on f s) as [|y ys] eqn:E; destruct X as [<-|X]; try (destruct X).
  - destruct D as [<-|[]]. now left.
  - destruct D as [<-|D]; [now left|right]. eapply IH; [now left|exact D].
  - right. eapply IH; [right; exact X|exact D].
Qed.
Lemma split_on_head f s : exists x ys, split_on f s = x :: ys /\ x = firstn (List.length x) s.
Proof.
  induction s as [|c s (x & ys & E & P)]; cbn; [exists [], []; auto|]. destruct (f c); [exists [], (split_on f s); auto|].
  rewrite E. exists (c :: x), ys. split; [reflexivity|]. cbn. now rewrite <- P.
Qed.
Lemma take_line_in s c : In c (take_line s) -> In c s.
Proof. induction s as [|d s IH]; [auto|]. cbn. destruct (Ascii.eqb d NL); [intros []|]. intros [<-|X]; [now left|right; auto]. Qed.
Lemma re_named_in s : forall acc a b, re_named acc s = Some (a, b) -> forall c, In c b -> In c s.
Proof.
  induction s as [|d s IH]; intros acc a b E c X; [discriminate|]. cbn [re_named] in E. destruct (is_named_sep d).
  - injection E as <- <-. right. now apply take_line_in.
  - destruct (Ascii.eqb d NL); right; eauto.
Qed.
Lemma no_quote_start s : ~ In DQ s -> starts_with [DQ] s = false.
Proof. destruct s as [|c s]; [reflexivity|]. intros N. cbn [starts_with]. destruct (Ascii.eqb DQ c) eqn:E; [|reflexivity]. apply Ascii.eqb_eq in E. subst. destruct N. now left. Qed.
Definition plainpiece (a : bytes) : Prop := printed a /\ ~ In DQ a.
Lemma f_process_attribute m n a : bad_type m = false -> plainpiece a -> fine (process_attribute m n a) (fun m' => bad_type m' = false).
Proof.
  intros B [P N]. unfold process_attribute. rewrite no_quote_start by exact N.
  unfold bad_type in B. destruct (m_type m) as [[]|] eqn:E; try discriminate; try (destruct (n =? 1)); cbn; unfold bad_type; cbn; rewrite ?E; reflexivity.
Qed.
Lemma f_process_one m n a : bad_type m = false -> plainpiece a -> (n = 0 -> firstn 2 a <> bs "qu" /\ firstn 2 a <> bs "ve") ->
  fine (process_one m n a) (fun m' => bad_type m' = false).
Proof.
  intros B P Z. unfold process_one, key_values_from_named_attribute. destruct (re_named [] a) as [[key v]|] eqn:E.
  - rewrite no_quote_start by (intros X; apply P; eapply re_named_in; eassumption). cbn [bind]. destruct (beqb key _); cbn; exact B.
  - cbn [bind]. destruct ((n =? 0) && (2 <=? List.length a)) eqn:X.
    + apply andb_true_iff in X as [X Y]. apply Nat.eqb_eq in X. apply Nat.leb_le in Y. specialize (Z X) as [Z1 Z2].
      rewrite printed_slice by (try apply P; lia). cbn [bind Nat.sub skipn].
      destruct (memb (firstn 2 a) [bs "so"; bs "qu"; bs "ve"]) eqn:M; [|now apply f_process_attribute].
      cbn [fine]. unfold bad_type, attribute_type_from_str. cbn [m_type set_m_type].
      destruct (beqb a (bs "role")); [reflexivity|].
      destruct (beqb a (bs "quote")) eqn:Q; [apply beqb_eq in Q; subst; now destruct Z1|].
      destruct (beqb a (bs "verse")) eqn:V; [apply beqb_eq in V; subst; now destruct Z2|].
      destruct (beqb a (bs "source")); reflexivity.
    + destruct a; [exact B|now apply f_process_attribute].
Qed.
Lemma f_process_from l : forall m n, bad_type m = false -> Forall plainpiece l ->
  (forall a r, l = a :: r -> n = 0 -> firstn 2 a <> bs "qu" /\ firstn 2 a <> bs "ve") ->
  fine (process_from m n l) (fun m' => bad_type m' = false).
Proof.
  induction l as [|a l IH]; intros m n B P Z; [exact B|]. inversion P; subst. cbn [process_from].
  eapply fine_bind; [apply f_process_one; eauto|]. intros m' B'. apply IH; auto. discriminate.
Qed.
Lemma f_process w m s : bad_type m = false -> printed s -> ~ In DQ s -> firstn 2 s <> bs "qu" -> firstn 2 s <> bs "ve" ->
  fine (process_attributes m (extract_attributes w s)) (fun m' => bad_type m' = false).
Proof.
  intros B P N Q V. unfold process_attributes, extract_attributes. rewrite MetaProofs.no_quoted by (now rewrite DocGraph.unchars_chars). cbn [fold_left app].
  apply f_process_from; [exact B| |].
  - apply Forall_forall. intros x X. split; [intros c D; apply P|intros D; apply N]; eapply split_on_pieces; eassumption.
  - intros a r E _. destruct (split_on_head (fun c => Ascii.eqb c ",") s) as (x & ys & E' & Px). rewrite E in E'. injection E' as -> ->.
    destruct (le_lt_dec 2 (List.length x)) as [L|L].
    + assert (firstn 2 x = firstn 2 s) as -> by (rewrite Px, firstn_firstn; f_equal; lia). auto.
    + split; intros D; apply (f_equal (@List.length ascii)) in D; rewrite firstn_length in D; (assert (List.length (bs "qu") = 2) by reflexivity); (assert (List.length (bs "ve") = 2) by reflexivity); lia.
Qed.
Lemma f_block_attributes w t p : K p -> (ttype t = TBlockAnchor /\ enclosed 2 (lexeme t) \/ ttype t = TElementAttributes /\ ordinary_list (lexeme t)) ->
  fine (parse_block_attributes w t p) (R p).
Proof.
  intros H X. pose proof H as []. unfold parse_block_attributes, p_add_metadata_from_token.
  assert (fine (match p_meta p with Some m => add_metadata_from_token w m t | None => new_block_meta_from_token w t end)
    (fun m => bad_type m = false)) as M.
  { assert (forall m, bad_type m = false -> ordinary_list (lexeme t) -> fine (let* l := inner (lexeme t) 1 1 in process_attributes m (extract_attributes w l)) (fun m => bad_type m = false)) as Y.
    { intros m B (En & N & Q & V). rewrite (inner_fine 1) by exact En. cbn [bind]. destruct En as [L P].
      set (s := lexeme t) in *. assert (forall x, In x (firstn (List.length s - 1 - 1) (skipn 1 s)) -> In x s) as S.
      { intros x Hx. rewrite <- (firstn_skipn 1 s). apply in_or_app. right.
        rewrite <- (firstn_skipn (List.length s - 1 - 1) (skipn 1 s)). apply in_or_app. now left. }
      assert (forall c, List.length c = 2 -> ~ In (ascii_of_nat 93) c -> firstn 2 (skipn 1 s) <> c -> firstn 2 (firstn (List.length s - 1 - 1) (skipn 1 s)) <> c) as Cut.
      { intros c Lc _ D E. apply D. rewrite firstn_firstn in E.
        destruct (le_lt_dec 2 (List.length s - 1 - 1)) as [Z|Z]; [now rewrite Nat.min_l in E by exact Z|].
        apply (f_equal (@List.length ascii)) in E. rewrite firstn_length in E. lia. }
      assert (~ In (ascii_of_nat 93) (bs "qu")) by (intros [D|[D|[]]]; discriminate).
      assert (~ In (ascii_of_nat 93) (bs "ve")) by (intros [D|[D|[]]]; discriminate).
      apply f_process; auto. intros c Hc. apply P. auto. }
    destruct X as [[T En]|[T O]].
    - destruct (p_meta p) as [m|]; [unfold add_metadata_from_token|unfold new_block_meta_from_token]; rewrite T, (inner_fine 2) by exact En; cbn [bind].
      + destruct (mhas _ _); exact k_meta0.
      + reflexivity.
    - destruct (p_meta p) as [m|]; [unfold add_metadata_from_token|unfold new_block_meta_from_token]; rewrite T.
      + apply Y; [exact k_meta0|exact O].
      + apply Y; [reflexivity|exact O]. }
  destruct (match p_meta p with Some m => _ | None => _ end) as [m| | | |]; try exact M. cbn.
  split; [split; cbn; auto|split; [reflexivity|left; reflexivity]].
Qed.
Lemma f_inline_attributes t p : K p -> enclosed 1 (lexeme t) -> fine (parse_inline_element_attributes t p) (R p).
Proof.
  intros H X. pose proof H as []. unfold parse_inline_element_attributes, new_inline_meta_from_token. rewrite (inner_fine 1) by exact X. cbn.
  split; [split; cbn; auto|split; [reflexivity|left; reflexivity]]. 
Qed.
Lemma f_attribute w t p : K p -> sets_other (token_text t) -> fine (parse_attribute w t p) (R p).
Proof.
  intros H (r & E & N). unfold parse_attribute. rewrite E. unfold split_terminator.
  change (split_on (fun c => Ascii.eqb c ":") (":" :: r)) with ([] :: split_on (fun c => Ascii.eqb c ":") r).
  destruct (split_on_head (fun c => Ascii.eqb c ":") r) as (x & ys & Ex & Px). rewrite Ex.
  assert (x <> bs "leveloffset") as Nx. { intros ->. apply N. now rewrite <- Px. }
  assert (forall comps, (comps = [] \/ exists zs, comps = x :: zs) ->
    fine (match comps with
          | [] => Ok p
          | key :: _ =>
              let v0 := trim (last comps []) in
              let value := if beqb key v0 then [] else v0 in
              if beqb key (bs "leveloffset") then parse_level_offset w value p else Ok (set_attrs (minsert key value (p_attrs p)) p)
          end) (R p)) as G.
  { intros comps [->|[zs ->]]; [cbn; now apply R_refl|]. rewrite (proj2 (beqb_neq _ _) Nx). cbn. rv. }
  set (l := [] :: x :: ys).
  assert (match rev l with [] :: r' => rev r' | _ => l end = l \/ match rev l with [] :: r' => rev r' | _ => l end = removelast l) as D.
  { destruct (rev l) as [|[|? ?] zs] eqn:Er; auto. right. apply (f_equal (@rev bytes)) in Er. rewrite rev_involutive in Er.
    rewrite Er. cbn [rev]. now rewrite removelast_last. }
  destruct D as [->| ->]; subst l; [apply (G (x :: ys)); eauto|]. change (removelast ([] :: x :: ys)) with (([] : bytes) :: removelast (x :: ys)).
  apply (G (removelast (x :: ys))). destruct ys as [|y ys]; [now left|right]. exists (removelast (y :: ys)). reflexivity.
Qed.

(** ** Block tokens *)
Lemma r_header w p : K p -> fine (check_and_move_header w p) (fun q => R p q /\ p_header q = None).
Proof.
  intros H. unfold check_and_move_header. eapply fine_bind; [now apply r_add_inlines|]. intros q Q. cbn. split; [|reflexivity].
  eapply R_trans; [exact Q|]. destruct Q. destruct (p_header q) as [h|]; [destruct (hd_title h)|]; rv.
Qed.
Lemma K_nospan p : K p -> K (set_in_span false p).
Proof. intros []. split; cbn; auto. Qed.
Lemma K_unclose p : K p -> p_istack p = [] -> K (set_close_parent false p).
Proof. intros [] E. split; cbn; auto. intros _. rewrite E. constructor. Qed.
Lemma r_newline w t p : K p -> fine (parse_new_line_char w t p) (R p).
Proof.
  intros H. unfold parse_new_line_char. cbn zeta.
  set (p1 := match p_title (set_in_line false p) with Some ti => _ | None => _ end).
  assert (R p p1) as H1.
  { subst p1. cbn [p_title set_in_line]. destruct (p_title p); [|rv].
    split; [apply K_noinl in H; kv|split; [reflexivity|right; reflexivity]]. }
  clearbody p1. enough (fine (if tt_eqb (p_last p1) TNewLineChar || tt_eqb (p_last p1) TEof
    then match p_header (set_dangling None p1) with
         | Some _ => check_and_move_header w (set_dangling None p1)
         | None => let* p0 := match p_bstack (set_dangling None p1) with
                      | [] => Ok (set_dangling None p1)
                      | b :: _ => if is_list_item b || is_dlist_item b then add_last_list_item_to_list (set_dangling None p1) else Ok (set_dangling None p1)
                      end in
           let* p2 := add_inlines_to_block_stack (set_in_span false p0) in
           match p_bstack (set_force_new true p2) with
           | [] => Ok (set_force_new true p2)
           | b :: r =>
             if negb (is_section b) && empty (p_open_lines (set_bstack r (set_force_new true p2)))
             then let* p3 := add_to_block_stack_or_graph b (set_bstack r (set_force_new true p2)) in
                  if p_close_parent p3 && negb (empty (p_bstack p3))
                  then let* p4 := add_last_to_block_stack_or_graph p3 in Ok (set_close_parent false p4) else Ok p3
             else push_block_to_stack b (set_bstack r (set_force_new true p2))
           end
         end
    else if p_in_cont p1 || clears_newline_after (p_last p1) then Ok (set_dangling None p1) else Ok (set_dangling (Some t) p1)) (R p1)) as G.
  { eapply fine_mono; [exact G|]. intros q. now apply R_trans. }
  destruct H1 as (K1 & _). destruct (_ || _); [|destruct (_ || _); cbn; rv].
  assert (R p1 (set_dangling None p1)) as H2 by rv. set (p2 := set_dangling None p1) in *. clearbody p2.
  enough (forall m : result pstate, fine m (R p2) -> fine m (R p1)) as Up.
  2:{ intros m Hm. eapply fine_mono; [exact Hm|]. intros q. now apply R_trans. }
  apply Up. destruct H2 as (K2 & _). clear Up K1.
  destruct (p_header p2); [eapply fine_mono; [now apply r_header|now intros q []]|].
  apply R_bind.
  { destruct (p_bstack p2) as [|b r] eqn:E; [now apply R_refl|]. destruct (_ || _); [|now apply R_refl].
    eapply fine_mono; [apply r_last_item; [exact K2|congruence]|now intros q []]. }
  intros q (Kq & _). apply K_nospan in Kq. eapply fine_bind; [now apply f_add_inlines|]. intros x ((Kx & Ox & _) & Ex & _).
  cbn [p_istack p_open_type set_in_span] in Ox.
  assert (R q (set_force_new true x)) as Y. { split; [kv|split; [exact Ox|right; exact Ex]]. }
  set (y := set_force_new true x) in *. assert (p_istack y = []) as Ey by exact Ex. clearbody y. clear Kx Ox Ex x.
  destruct (p_bstack y) as [|b r]; [exact Y|]. destruct Y as (Ky & Oy & _).
  assert (forall m : result pstate, fine m (R (set_bstack r y)) -> fine m (R q)) as Up.
  { intros m Hm. eapply fine_mono; [exact Hm|]. intros z. apply R_trans. split; [kv|split; [exact Oy|right; exact Ey]]. }
  assert (K (set_bstack r y)) as Ks by kv.
  destruct (_ && _); [|apply Up; now apply r_push_stack].
  apply Up. assert (p_istack (set_bstack r y) = []) as Es by exact Ey. clear Up Ky Oy Ey. set (z := set_bstack r y) in *. clearbody z. clear y.
  apply R_bind; [now apply r_stack_or_graph|]. intros a (Ka & _ & Ea).
  destruct (_ && _); [|now apply R_refl].
  eapply fine_bind; [now apply r_last_stack_or_graph|]. intros c (Kc & Oc & Ec). cbn.
  assert (p_istack c = []) as Ec' by (destruct Ec as [->|Ec]; [destruct Ea as [->|Ea]; [exact Es|exact Ea]|exact Ec]).
  split; [now apply K_unclose|]. split; [exact Oc|right; exact Ec'].
Qed.
Lemma r_break v t p : K p -> fine (parse_break v t p) (R p).
Proof. intros H. now apply r_stack_or_graph. Qed.
Lemma r_unordered t p : K p -> fine (parse_unordered_list_item t p) (R p).
Proof.
  intros H. unfold parse_unordered_list_item. cbn zeta. assert (R p (set_dangling None p)) as H1 by rv.
  set (q := set_dangling None p) in *. clearbody q. eapply fine_mono; [|intros r; apply R_trans; exact H1]. destruct H1 as (Kq & _).
  apply R_bind; [|intros r (Kr & _); now apply r_push_stack].
  destruct (p_bstack q) as [|b r] eqn:E; [now apply r_push_stack|]. destruct (is_unordered_list_item b); [|now apply r_push_stack].
  eapply fine_mono; [apply r_last_item; [exact Kq|congruence]|now intros x []].
Qed.
Lemma r_ordered t p : K p -> fine (parse_ordered_list_item t p) (R p).
Proof.
  intros H. unfold parse_ordered_list_item. cbn zeta. assert (R p (set_dangling None p)) as H1 by rv.
  set (q := set_dangling None p) in *. clearbody q. eapply fine_mono; [|intros r; apply R_trans; exact H1]. destruct H1 as (Kq & _).
  apply R_bind; [|intros r (Kr & _); now apply r_push_stack].
  assert (fine (if tt_eqb (ttype t) TCodeCalloutListItem then
        let* p0 := match p_bstack q with
          | b :: _ => if is_source_block b then add_last_to_block_stack_or_graph q else Ok q
          | [] => Ok q
          end in
        push_block_to_stack (Blk (HList LOrdered) (Some (meta_with_role (bs "colist"))) [] (token_locations t)) p0
      else push_block_to_stack (new_list LOrdered (token_locations t)) q) (R q)) as G.
  { destruct (tt_eqb _ _); [|now apply r_push_stack]. apply R_bind; [|intros r (Kr & _); now apply r_push_stack].
    destruct (p_bstack q); [now apply R_refl|]. destruct (is_source_block b); [now apply r_last_stack_or_graph|now apply R_refl]. }
  destruct (p_bstack q) as [|b r] eqn:E; [exact G|]. destruct (is_ordered_list_item b); [|exact G].
  eapply fine_mono; [apply r_last_item; [exact Kq|congruence]|now intros x []].
Qed.
Lemma split_newline_spec l a b : split_at_newline l = Some (a, b) -> exists i, l = a ++ i :: b.
Proof.
  revert a. induction l as [|i l IH]; intros a E; [discriminate|]. cbn [split_at_newline] in E. destruct (is_newline i); [injection E as <- <-; now exists i|].
  destruct (split_at_newline l) as [[a' b']|]; [|discriminate]. injection E as <- ->. destruct (IH _ eq_refl) as [j ->]. now exists j.
Qed.
Lemma Forall_revapp {A} (P : A -> Prop) l a i b : Forall P l -> rev l = a ++ i :: b -> Forall P (rev a).
Proof. intros F E. apply Forall_rev in F. rewrite E in F. apply Forall_app in F as [F _]. now apply Forall_rev. Qed.
Lemma r_dlist t p : K p -> fine (parse_description_list_term t p) (R p).
Proof.
  intros H. unfold parse_description_list_term. cbn zeta. assert (R p (set_force_new false p)) as H1 by rv.
  set (q := set_force_new false p) in *. clearbody q. eapply fine_mono; [|intros r; apply R_trans; exact H1]. destruct H1 as (Kq & _). clear H p.
  apply fine_bind with (Q := fun x => K (set_istack [] x) /\ p_open_type x = p_open_type q).
  - destruct (split_at_newline (rev (p_istack q))) as [[a b]|] eqn:E; [|cbn; split; [now apply K_noinl|reflexivity]].
    apply split_newline_spec in E as [i E]. assert (K (set_istack (rev a) q)) as Ka.
    { pose proof Kq as []. split; cbn; auto; [eapply Forall_revapp; eassumption|]. intros X. exact (Forall_revapp _ _ _ _ _ (k_ref0 X) E). }
    eapply fine_bind; [now apply r_add_inlines|]. intros x (Kx & Ox & _). cbn. split; [|exact Ox]. apply K_noinl in Kx. kv.
  - intros x [Kx Ox]. assert (forall m : result pstate, fine m (fun y => R (set_istack [] x) y) -> fine m (R q)) as Up.
    { intros m Hm. eapply fine_mono; [exact Hm|]. intros y (Ky & Oy & Ey). split; [exact Ky|]. split; [rewrite Oy; exact Ox|].
      right. destruct Ey as [->|Ey]; [reflexivity|exact Ey]. }
    apply Up. set (y := set_istack [] x) in *. set (it := new_dlist_item _ _). clearbody it y.
    apply R_bind.
    { destruct (p_bstack y) as [|b0 r] eqn:E; [now apply r_push_stack|]. destruct (is_dlist_item b0); [|now apply r_push_stack].
      eapply fine_mono; [apply r_last_item; [exact Kx|congruence]|now intros z []]. }
    intros z (Kz & _). apply R_bind; [now apply r_push_stack|]. intros u (Ku & _). cbn. rv.
Qed.
Lemma add_zero {E} w z : fits_i8 z = true -> add_i8 (E := E) w z 0 = Ok z.
Proof. intros F. unfold add_i8. rewrite Z.add_0_r, F. reflexivity. Qed.
Lemma r_headings w t p : K p -> fine (parse_section_headings w t p) (R p).
Proof.
  intros H. pose proof H as []. unfold parse_section_headings, get_heading_level.
  apply clean_bind.
  { destruct (ttype t); cbn [heading_base]; try exact I; cbn [tt_eqb]; rewrite ?k_off0, ?add_zero by reflexivity; cbn; exact I. }
  intros level. apply R_bind.
  { destruct (p_bstack p); [now apply R_refl|]. destruct (is_section _); [now apply r_last_stack_or_graph|now apply R_refl]. }
  intros q (Kq & _). apply R_bind; [now apply r_push_stack|]. intros r (Kr & _). cbn. rv.
Qed.
Lemma r_title w t p : K p -> fine (parse_title w t p) (R p).
Proof.
  intros H. pose proof H as []. unfold parse_title. rewrite k_off0. cbn [Z.eqb negb]. destruct (loc_eqb _ _); [cbn; rv|exact I].
Qed.
Lemma parent_clean t : clean (parent_from_token t).
Proof. unfold parent_from_token. destruct (ttype t); exact I. Qed.
Lemma r_admonition t p : K p -> fine (parse_admonition_para_syntax t p) (R p).
Proof.
  intros H. unfold parse_admonition_para_syntax. apply clean_bind; [apply parent_clean|]. intros b. cbn.
  split; [|split; [reflexivity|left; reflexivity]]. apply K_close in H. kv.
Qed.
Lemma consolidate_head b : b_head (consolidate_locations b) = b_head b.
Proof. destruct b as [h m k loc]. destruct h; cbn; try reflexivity; destruct (last_locs k); reflexivity. Qed.
Lemma push_block_head b nb : fine (push_block b nb) (fun b' => b_head b' = b_head b).
Proof.
  destruct b as [h m k loc]. pose proof (push_block_clean (Blk h m k loc) nb) as X. cbn [push_block] in *.
  match goal with |- fine (bind ?m _) _ => destruct m end; try exact X. cbn [bind fine]. now rewrite consolidate_head.
Qed.
Lemma push_blocks_head l : forall b, fine (push_blocks b l) (fun b' => b_head b' = b_head b).
Proof.
  induction l as [|x l IH]; intros b; [reflexivity|]. cbn [push_blocks]. eapply fine_bind; [apply push_block_head|]. intros b' E.
  eapply fine_mono; [apply IH|]. intros c. now rewrite E.
Qed.
Lemma parent_eqb_table a b : parent_eqb a b = true -> is_table b = false -> is_table a = false.
Proof.
  destruct a as [h m k loc], b as [h' m' k' loc']. destruct h; try reflexivity. destruct h'; try discriminate. cbn.
  destruct n, n0; cbn; try reflexivity; try discriminate; destruct v as [x|]; try discriminate; destruct v0 as [y|]; try discriminate; destruct (parent_variant_beq x y); discriminate.
Qed.
Lemma parent_not_table t : ttype t <> TTable -> fine (parent_from_token t) (fun b => is_table b = false).
Proof. unfold parent_from_token. destruct (ttype t); intros; try exact I; try reflexivity; congruence. Qed.
Lemma r_parent t p : K p -> ttype t <> TTable -> fine (parse_delimited_parent_block t p) (R p).
Proof.
  intros H T. unfold parse_delimited_parent_block. cbn zeta. eapply fine_bind; [now apply parent_not_table|]. intros block0 NT.
  set (bp := match p_title (set_dangling None p) with Some ti => _ | None => _ end).
  assert (R p (snd bp) /\ is_table (fst bp) = false) as [H1 NT'].
  { subst bp. cbn [p_title set_dangling]. destruct (p_title p); cbn [fst snd]; (split; [rv|]); [|exact NT].
    destruct block0 as [[] ? ? ?]; exact NT. }
  destruct bp as [block q]. cbn [fst snd] in H1, NT'. eapply fine_mono; [|intros r; apply R_trans; exact H1]. destruct H1 as (Kq & _). clear H p.
  assert (forall l, fine (push_block_to_stack block (set_open_lines l q)) (R q)) as G.
  { intros l. eapply fine_mono; [apply r_push_stack; kv|]. intros r. apply R_trans. rv. }
  destruct (split_at_first is_parent (p_bstack q)) as [[[above matched] below]|] eqn:E; [|apply G].
  destruct (parent_eqb matched block) eqn:Pe; [|apply G]. apply parent_eqb_table in Pe; [|exact NT'].
  assert (K (set_bstack (above ++ below) q)) as Ks by kv.
  eapply fine_bind; [apply f_add_inlines; exact Ks|]. intros x ((Kx & Ox & Ex) & _ & L & _). cbn [p_bstack set_bstack p_istack p_open_type] in L, Ox, Ex.
  destruct (p_open_lines x) as [|l0 ls]; [exact I|].
  apply clean_bind; [unfold block_line; destruct (b_locs matched); exact I|]. intros _.
  cbn [p_bstack set_open_lines].
  assert (List.length (p_bstack x) <? List.length below = false) as -> by (apply Nat.ltb_ge; rewrite app_length in L; lia).
  destruct matched as [h m k loc]. eapply fine_bind; [apply push_blocks_head|]. intros b Hb.
  assert (is_table b = false) as ->. { destruct b; cbn in Hb; subst. exact Pe. }
  cbn [bind]. eapply fine_bind; [apply r_push_stack; kv|]. intros y (Ky & Oy & Ey). cbn.
  assert (K (set_in_cont false y)) as Kz. { pose proof Ky as []. split; cbn; auto. }
  split; [exact Kz|]. split; [cbn; rewrite Oy; exact Ox|]. cbn. cbn in Ey. destruct Ey as [->|Ey]; [exact Ex|now right].
Qed.

(** ** The invariant *)
Definition openok (p : pstate) : Prop :=
  match p_open_type p with
  | None | Some TPassthroughInlineMacro => True
  | Some TPassthroughBlock | Some TLiteralBlock | Some TSourceBlock | Some TCommentBlock =>
      p_header p = None /\ p_meta p = None /\ topleaf p
  | _ => False
  end.
Definition Inv (p : pstate) : Prop := K p /\ topok (p_istack p) /\ openok p.
Lemma Inv_R p q : topok (p_istack p) -> p_open_type p = None -> R p q -> Inv q.
Proof.
  intros T O (A & B & D). split; [exact A|]. split; [destruct D as [->| ->]; [exact T|exact I]|]. unfold openok. now rewrite B, O.
Qed.
Lemma Inv_C p q : openok p -> C p q -> topok (p_istack q) -> Inv q.
Proof.
  intros O (A & B & D & E & F) T. split; [exact A|]. split; [exact T|]. unfold openok, topleaf in *. now rewrite B, D, E, F.
Qed.
Lemma i_leaf_open t p : Inv p -> p_open_type p = None -> p_header p = None ->
  In (ttype t) [TPassthroughBlock; TLiteralBlock; TSourceBlock; TCommentBlock] -> fine (parse_delimited_leaf_block t p) Inv.
Proof.
  intros (H & T & _) O Hd D. unfold parse_delimited_leaf_block. rewrite O. cbn zeta.
  assert (fine (leaf_from_token t) leafy) as L. { unfold leaf_from_token. destruct D as [<-|[<-|[<-|[<-|[]]]]]; exact I. }
  eapply fine_bind; [exact L|]. intros b B. eapply fine_bind; [apply f_push_stack; kv|]. intros q ((Kq & Oq & _) & Iq & Hq & Mq & b' & Eb & Lb). cbn.
  split; [kv|]. cbn in Iq, Hq, Oq. cbn [p_istack set_force_new]. split; [now rewrite Iq|]. unfold openok, topleaf. cbn. rewrite Oq, Eb, Hq, Mq.
  destruct D as [<-|[<-|[<-|[<-|[]]]]]; auto.
Qed.
Lemma i_leaf_close t p : Inv p -> p_header p = None -> p_meta p = None -> topleaf p -> p_open_type p <> None -> fine (parse_delimited_leaf_block t p) Inv.
Proof.
  intros (H & T & _) Hd M L O. unfold parse_delimited_leaf_block. destruct (p_open_type p); [|congruence].
  eapply fine_bind; [now apply f_add_inlines|]. intros q ((Kq & _) & Iq & _ & _ & X). destruct (X Hd M) as [Mq Lq]. specialize (Lq L).
  unfold topleaf in Lq. destruct (p_bstack q) as [|b r]; [destruct Lq|]. destruct b as [[] m k loc]; try contradiction. cbn [add_locations bind].
  eapply fine_bind; [apply f_push_stack; kv|]. intros x ((Kx & _) & Ix & _). cbn. split; [kv|]. cbn in Ix. cbn. rewrite Ix, Iq. split; exact I.
Qed.
Lemma i_dispatch w t p : Inv p -> tame t -> pre_dispatch t p = PreGo -> p_header p = None \/ can_be_in_document_header t = true ->
  fine (dispatch w t p) Inv.
Proof.
  intros V T G Hd. pose proof V as (H & Top & O). unfold pre_dispatch in G.
  assert (forall m : result pstate, fine m (fun q => C p q /\ topok (p_istack q)) -> fine m Inv) as UpC.
  { intros m X. eapply fine_mono; [exact X|]. intros q [Q Y]. now apply (Inv_C p). }
  destruct (p_open_type p) as [ty|] eqn:Eo.
  - unfold openok in O. rewrite Eo in O.
    destruct ty; try contradiction; cbn in G;
      repeat match type of G with (if ?b then _ else _) = _ => destruct b eqn:Eb; [|discriminate] end;
      unfold tame in T; unfold dispatch; destruct (ttype t) eqn:Et; try discriminate; try contradiction.
    all: first
      [ solve [destruct O as (O1 & O2 & O3); apply i_leaf_close; [exact V|exact O1|exact O2|exact O3|congruence]]
      | solve [unfold parse_comment_block; rewrite Eo; cbn; apply K_noinl in H; split; [kv|split; exact I]]
      | solve [unfold parse_inline_macro_close; rewrite ?Eo; cbn; split; [kv|split; [exact Top|exact I]]] ].
  - assert (forall m : result pstate, fine m (R p) -> fine m Inv) as UpR.
    { intros m X. eapply fine_mono; [exact X|]. intros q. now apply Inv_R. }
    clear G. unfold tame in T. unfold dispatch, can_be_in_document_header, is_inline in *. destruct (ttype t) eqn:Et; try contradiction;
      try (destruct Hd as [Hd|Hd]; [|discriminate]);
      try (apply UpR; first [now apply r_newline | now apply r_break | now apply r_unordered | now apply r_ordered | now apply r_dlist
            | now apply r_headings | now apply r_title | now apply r_admonition | now apply f_attribute | (apply r_parent; [exact H|congruence])
            | (apply f_block_attributes; [exact H|auto]) | now apply f_inline_attributes ]);
      try (apply UpC; first [now apply f_text | now apply f_charref | now apply f_reference | now apply f_xref | now apply f_macro_close]);
      try (apply i_leaf_open; [exact V|exact Eo|exact Hd|rewrite Et; cbn; tauto]).
    all: first
      [ exact V
      | solve [apply UpC; cbn [fine]; apply f_push_back; [exact H|repeat split; apply locations_ne|exact I|reflexivity]]
      | solve [apply UpR; cbn [fine]; rv]
      | solve [cbn [fine]; split; [kv|split; [exact Top|exact I]]]
      | solve [rewrite Hd; exact V]
      | idtac ].
    + unfold parse_quote_verse. rewrite Eo. pose proof H as []. unfold metaok, bad_type in k_meta0.
      destruct (p_meta p) as [m|]; [destruct (m_type m) as [[]|]; try discriminate|]; apply UpR, r_parent; congruence.
    + unfold parse_comment_block. rewrite Eo. apply i_leaf_open; [exact V|exact Eo|exact Hd|rewrite Et; cbn; tauto].
Qed.

(** ** Tokens *)
Lemma i_header w t p : Inv p ->
  fine (match p_header p with Some _ => if can_be_in_document_header t then Ok p else check_and_move_header w p | None => Ok p end)
    (fun q => Inv q /\ p_open_type q = p_open_type p /\ (p_header q = None \/ can_be_in_document_header t = true)).
Proof.
  intros V. destruct (p_header p) eqn:Eh; [|cbn; auto]. destruct (can_be_in_document_header t); [cbn; auto|].
  destruct V as (H & T & O). eapply fine_mono; [now apply r_header|]. intros q (Q & Hq). pose proof Q as (Kq & Oq & Iq).
  split; [|auto]. split; [exact Kq|]. split; [destruct Iq as [->| ->]; [exact T|exact I]|].
  unfold openok in *. rewrite Oq. destruct (p_open_type p) as [[]|]; try exact O; destruct O; congruence.
Qed.
Lemma i_pre t p : Inv p -> pre_dispatch t p <> PreGo ->
  fine (match pre_dispatch t p with PreText => parse_text t p | PrePass => pass_text_through t p | PreGo => Panic end) (fun q => Inv q /\ p_open_type q = p_open_type p).
Proof.
  intros (H & T & O) N. destruct (pre_dispatch t p); [| |congruence].
  - eapply fine_mono; [now apply f_text|]. intros q [Q Tq]. split; [now apply (Inv_C p)|apply Q].
  - eapply fine_mono; [now apply f_pass|]. intros q [Q Tq]. split; [now apply (Inv_C p)|apply Q].
Qed.
Lemma i_token w fuel t p : Inv p -> tame t -> fine (token_into w fuel t p) Inv.
Proof.
  intros V T. assert (token_into w fuel t p =
    let* q := match p_header p with Some _ => if can_be_in_document_header t then Ok p else check_and_move_header w p | None => Ok p end in
    match pre_dispatch t q with
    | PreGo => dispatch w t q
    | _ => match pre_dispatch t q with PreText => parse_text t q | PrePass => pass_text_through t q | PreGo => Panic end
    end) as ->.
  { destruct fuel; cbn [token_into]; unfold tame in T; (match goal with |- bind ?m _ = _ => destruct m end; try reflexivity; cbn [bind]);
      destruct (pre_dispatch t a); try reflexivity; destruct (ttype t); try reflexivity; contradiction. }
  eapply fine_bind; [now apply i_header|]. intros q (Vq & Oq & Hq). destruct (pre_dispatch t q) eqn:E.
  - pose proof (i_pre t q Vq) as X. rewrite E in X. eapply fine_mono; [apply X; discriminate|now intros r []].
  - pose proof (i_pre t q Vq) as X. rewrite E in X. eapply fine_mono; [apply X; discriminate|now intros r []].
  - now apply i_dispatch.
Qed.
Lemma Inv_last ty p : Inv p -> Inv (set_last ty p).
Proof. intros (H & T & O). split; [kv|]. split; [exact T|exact O]. Qed.

(** ** Spans *)
Lemma token_into_eq w fuel t p : ttype t <> TInclude -> ttype t <> TTableCell -> token_into w fuel t p =
    let* q := match p_header p with Some _ => if can_be_in_document_header t then Ok p else check_and_move_header w p | None => Ok p end in
    match pre_dispatch t q with
    | PreGo => dispatch w t q
    | _ => match pre_dispatch t q with PreText => parse_text t q | PrePass => pass_text_through t q | PreGo => Panic end
    end.
Proof.
  intros A B. destruct fuel; cbn [token_into]; (match goal with |- bind ?m _ = _ => destruct m end; try reflexivity; cbn [bind]);
      destruct (pre_dispatch t a); try reflexivity; destruct (ttype t); try reflexivity; congruence.
Qed.
Definition markword (t : token) : Prop := mark (ttype t) = true \/ word t.
Lemma markword_plain t : markword t -> ttype t <> TInclude /\ ttype t <> TTableCell.
Proof. intros [M|[M|M]]; [destruct (ttype t); try discriminate; split; discriminate|rewrite M; split; discriminate|rewrite M; split; discriminate]. Qed.
Lemma i_inside w fuel t p : Inv p -> p_open_type p <> None -> markword t ->
  fine (token_into w fuel t p) (fun q => Inv q /\ p_open_type q = p_open_type p).
Proof.
  intros V N M. rewrite token_into_eq by (now apply markword_plain).
  eapply fine_bind; [now apply i_header|]. intros q (Vq & Oq & _). rewrite <- Oq. rewrite <- Oq in N.
  assert (pre_dispatch t q <> PreGo) as G.
  { destruct Vq as (_ & _ & O). unfold openok in O. unfold pre_dispatch. destruct (p_open_type q) as [ty|]; [|congruence].
    unfold markword, word in M. destruct ty; try contradiction; destruct (ttype t); cbn in *; try discriminate; destruct M as [M|[M|M]]; discriminate. }
  pose proof (i_pre t q Vq G) as X. destruct (pre_dispatch t q); [exact X|exact X|congruence].
Qed.
Lemma i_inside_loop w fuel l : forall p, Inv p -> p_open_type p <> None -> Forall markword l ->
  fine (parse_loop w fuel l p) Inv.
Proof.
  induction l as [|t l IH]; intros p V N F; [exact V|]. inversion F; subst. cbn [parse_loop].
  eapply fine_bind; [now apply i_inside|]. intros q [Vq Oq]. apply IH; [now apply Inv_last|cbn; congruence|assumption].
Qed.

Definition spans (v : span_variant) (f : span_form) (p : pstate) : Prop :=
  p_offset p = 0%Z /\ p_in_cont p = false /\ p_in_span p = true /\ metaok (p_meta p) /\ p_dangling p = None /\ p_open_type p = None
  /\ exists kids m loc r, p_istack p = ISpan v f kids m loc true :: r /\ loc <> [] /\ Forall good r
     /\ (p_close_parent p = false -> Forall refok r).
Definition header_ok (t : token) (p : pstate) : Prop := p_header p = None \/ can_be_in_document_header t = true.
Lemma header_step w t p : header_ok t p ->
  match p_header p with Some _ => if can_be_in_document_header t then Ok p else check_and_move_header w p | None => Ok p end = Ok p.
Proof. intros [->| ->]; [reflexivity|]. now destruct (p_header p). Qed.
Lemma span_new t : mark (ttype t) = true -> exists v f, v <> SFootnote /\
  forall u, ttype u = ttype t -> span_from_token u = Ok (new_span v f (token_locations u)).
Proof.
  intros M. unfold span_from_token. destruct (ttype t); try discriminate; eexists _, _; (split; [|intros u ->; reflexivity]); discriminate.
Qed.
Lemma mark_dispatch w t p : mark (ttype t) = true -> dispatch w t p = (let* s := span_from_token t in parse_inline_span s p).
Proof. intros M. unfold dispatch. destruct (ttype t); try discriminate; reflexivity. Qed.
Lemma i_span_open w fuel t v f p : Inv p -> p_open_type p = None -> mark (ttype t) = true ->
  span_from_token t = Ok (new_span v f (token_locations t)) -> v <> SFootnote ->
  fine (token_into w fuel t p) (fun q => spans v f q /\ header_ok t q).
Proof.
  intros V O M S F. rewrite token_into_eq by (apply markword_plain; now left).
  eapply fine_bind; [now apply i_header|]. intros q (Vq & Oq & Hq). rewrite O in Oq. clear V O.
  unfold pre_dispatch. rewrite Oq, mark_dispatch, S by exact M. cbn [bind]. destruct Vq as (Kq & Tq & _).
  assert (parse_inline_span (new_span v f (token_locations t)) q = parse_inline_span_new (new_span v f (token_locations t)) q) as ->.
  { unfold parse_inline_span. destruct (p_istack q) as [|l r]; [reflexivity|]. cbn in Tq. destruct l; try discriminate; reflexivity. }
  unfold parse_inline_span_new.
  apply fine_bind with (Q := fun x => C q x /\ p_dangling x = None).
  { destruct (p_dangling q) as [nl|] eqn:En; [|cbn; split; [now apply C_refl|exact En]].
    eapply fine_bind; [now apply f_add_last|]. intros x [X _]. cbn. split; [|reflexivity]. eapply C_trans; [exact X|]. destruct X; cv. }
  intros x ((Kx & Ox & Hx & _) & Dx). pose proof Kx as []. rewrite f_dangling by exact k_in0. cbn [bind].
  assert (header_ok t x) as HX by (unfold header_ok; now rewrite Hx).
  rewrite Oq in Ox. unfold spans. destruct (p_meta x) as [m|] eqn:Em; cbn.
  - split; [|exact HX]. repeat split; auto. eexists _, _, _, _. split; [reflexivity|]. split; [apply locations_ne|auto].
  - split; [|exact HX]. repeat split; auto; [now rewrite Em|]. eexists _, _, _, _. split; [reflexivity|]. split; [apply locations_ne|auto].
Qed.
Lemma span_add_shape v f kids m loc o i : exists kids', span_add (ISpan v f kids m loc o) i = ISpan v f kids' m (reconcile loc (inline_locs i)) o.
Proof. cbn [span_add]. destruct (last_opt kids) as [[? ? ? ? ? []| | |]|]; [eauto|eauto|eauto| |eauto|eauto]. destruct i; eauto. Qed.
Lemma i_span_word w fuel t v f p : word t -> spans v f p -> fine (token_into w fuel t p) (fun q => spans v f q /\ p_header q = p_header p).
Proof.
  intros W (A & B & D & E & F & G & kids & m & loc & r & I1 & I2 & I3 & I4).
  rewrite token_into_eq by (apply markword_plain; now right). rewrite header_step by (right; destruct W as [W|W]; unfold can_be_in_document_header, is_inline; now rewrite W).
  cbn [bind]. unfold pre_dispatch. rewrite G.
  assert (forall i, spans v f (set_istack (span_add (ISpan v f kids m loc true) i :: r) p)) as Y.
  { intros i. destruct (span_add_shape v f kids m loc true i) as [kids' ->]. repeat split; auto.
    eexists _, _, _, _. split; [reflexivity|]. split; [now apply reconcile_ne|auto]. }
  unfold dispatch. destruct W as [W|W]; rewrite W.
  - unfold parse_text, flush_dangling. rewrite F. cbn [bind]. unfold add_text_to_last_inline, add_to_last_inline. rewrite I1, D. cbn [fine].
    split; [apply Y|reflexivity].
  - unfold parse_charref, flush_dangling. rewrite F. cbn [bind]. rewrite I1, D. cbn [fine]. split; [apply Y|reflexivity].
Qed.
Lemma i_span_words w fuel l : forall v f p, Forall word l -> spans v f p ->
  fine (parse_loop w fuel l p) (fun q => spans v f q /\ p_header q = p_header p).
Proof.
  induction l as [|t l IH]; intros v f p W S; [split; [exact S|reflexivity]|]. inversion W; subst. cbn [parse_loop].
  eapply fine_bind; [now apply (i_span_word w fuel t v f p)|]. intros q [Sq Hq].
  eapply fine_mono; [apply (IH v f); [assumption|exact Sq]|]. intros x [Sx Hx]. split; [exact Sx|]. rewrite Hx. exact Hq.
Qed.
Lemma i_span_close w fuel t v f p : spans v f p -> v <> SFootnote -> mark (ttype t) = true -> header_ok t p ->
  span_from_token t = Ok (new_span v f (token_locations t)) ->
  fine (token_into w fuel t p) (fun q => K q /\ p_open_type q = None /\ p_header q = p_header p).
Proof.
  intros (A & B & D & E & F & G & kids & m & loc & r & I1 & I2 & I3 & I4) NF M Hd S.
  rewrite token_into_eq by (apply markword_plain; now left). rewrite header_step by exact Hd. cbn [bind]. unfold pre_dispatch. rewrite G.
  rewrite mark_dispatch, S by exact M. cbn [bind]. unfold parse_inline_span. rewrite I1.
  assert (inline_eqb (new_span v f (token_locations t)) (ISpan v f kids m loc true) = true) as -> by (destruct v, f; reflexivity).
  cbn. split; [|auto]. split; cbn; auto.
  - constructor; [|exact I3]. split; [cbn; now apply reconcile_ne|]. split; [reflexivity|]. destruct v; reflexivity || congruence.
  - intros X. constructor; [exact I|auto].
Qed.
Lemma i_word w fuel t p : K p -> p_open_type p = None -> word t -> fine (token_into w fuel t p) Inv.
Proof.
  intros H O W. rewrite token_into_eq by (apply markword_plain; now right).
  rewrite header_step by (right; destruct W as [W|W]; unfold can_be_in_document_header, is_inline; now rewrite W).
  cbn [bind]. unfold pre_dispatch. rewrite O. unfold dispatch.
  assert (openok p) as Op by (unfold openok; now rewrite O).
  destruct W as [W|W]; rewrite W; (eapply fine_mono; [first [now apply f_text|now apply f_charref]|]); intros q [Q T]; now apply (Inv_C p).
Qed.

Lemma parse_loop_app w fuel a b p : parse_loop w fuel (a ++ b) p = (let* q := parse_loop w fuel a p in parse_loop w fuel b q).
Proof. revert p. induction a as [|t a IH]; intros p; [reflexivity|]. cbn [parse_loop app]. destruct (token_into w fuel t p); try reflexivity. cbn [bind]. apply IH. Qed.
Lemma i_segment w fuel x ws y q p : Inv p -> mark (ttype x) = true -> Forall word ws -> ttype y = ttype x -> word q ->
  fine (parse_loop w fuel (x :: ws ++ [y; q]) p) Inv.
Proof.
  intros V M W Y Q. destruct (p_open_type p) as [ty|] eqn:O.
  - apply i_inside_loop; [exact V|congruence|]. constructor; [now left|]. apply Forall_app. split.
    + eapply Forall_impl; [|exact W]. intros t T. now right.
    + apply Forall_cons; [left; now rewrite Y|apply Forall_cons; [now right|apply Forall_nil]].
  - destruct (span_new x M) as (v & f & NF & S).
    cbn [parse_loop]. eapply fine_bind; [eapply i_span_open; eauto|]. intros p1 [S1 H1].
    rewrite parse_loop_app. eapply fine_bind; [apply (i_span_words w fuel ws v f); [exact W|exact S1]|]. intros p2 [S2 H2]. cbn in H2.
    cbn [parse_loop]. eapply fine_bind; [eapply (i_span_close w fuel y v f); [exact S2|exact NF|now rewrite Y| |apply S; exact Y]|].
    { unfold header_ok, can_be_in_document_header, is_inline in *. now rewrite H2, Y. }
    intros p3 (K3 & O3 & _). eapply fine_bind; [eapply i_word; [|exact O3|exact Q]|]; [kv|]. intros p4 V4. cbn [bind]. now apply Inv_last.
Qed.
Lemma i_loop w fuel l : orderly l -> forall p, Inv p -> fine (parse_loop w fuel l p) Inv.
Proof.
  induction 1 as [|t r T _ IH|x ws y q r M W Y Q _ IH]; intros p V.
  - exact V.
  - cbn [parse_loop]. eapply fine_bind; [now apply i_token|]. intros p1 V1. apply IH. now apply Inv_last.
  - replace (x :: ws ++ y :: q :: r) with ((x :: ws ++ [y; q]) ++ r) by (cbn; rewrite <- app_assoc; reflexivity).
    rewrite parse_loop_app. eapply fine_bind; [now apply i_segment|]. exact IH.
Qed.
Lemma Inv_new origin resolve : Inv (set_asg new_asg (new_parser origin resolve)).
Proof. repeat split; try exact I. all: intros; constructor. Qed.
Theorem orderly_ends w fuel origin resolve l : orderly l ->
  match parse_with w fuel (l, Ok tt) (new_parser origin resolve) with Ok _ | Err _ => True | _ => False end.
Proof.
  intros L. enough (fine (parse_with w fuel (l, Ok tt) (new_parser origin resolve)) (fun _ => True)) as G.
  { destruct (parse_with _ _ _ _); exact G. }
  unfold parse_with. cbn [fst snd]. eapply fine_bind; [apply i_loop; [exact L|apply Inv_new]|]. intros p (H & _). cbn [bind].
  eapply fine_bind; [now apply r_add_inlines|]. intros q (Kq & _). eapply fine_bind; [now apply r_flush|]. intros r _. exact I.
Qed.

(** ** A check, for the examples *)
Definition wordb (t : token) : bool := tt_eqb (ttype t) TText || tt_eqb (ttype t) TCharRef.
Definition enclosedb (n : nat) (s : bytes) : bool := (2 * n <=? List.length s) && forallb is_ascii s.
Definition tameb (t : token) : bool :=
  match ttype t with
  | TAttribute =>
      match token_text t with
      | c :: r => Ascii.eqb c ":" && negb (beqb (firstn (List.length (bs "leveloffset")) r) (bs "leveloffset"))
      | [] => false
      end
  | TAttributeReference => enclosedb 1 (token_text t)
  | TCrossReference => enclosedb 2 (token_text t)
  | TInlineStyle => enclosedb 1 (lexeme t)
  | TBlockAnchor => enclosedb 2 (lexeme t)
  | TElementAttributes =>
      enclosedb 1 (lexeme t) && negb (memc DQ (lexeme t))
      && negb (beqb (firstn 2 (skipn 1 (lexeme t))) (bs "qu")) && negb (beqb (firstn 2 (skipn 1 (lexeme t))) (bs "ve"))
  | TEmail | TInclude | TTableCell | TTable | TFootnoteMacro | TInlineImageMacro | TBlockImageMacro | TCodeCallout | TBlockContinuation => false
  | ty => negb (mark ty)
  end.
Fixpoint drop_words (l : list token) : list token :=
  match l with
  | t :: r => if wordb t then drop_words r else l
  | [] => []
  end.
Fixpoint orderlyb (fuel : nat) (l : list token) : bool :=
  match fuel with
  | O => false
  | S f =>
      match l with
      | [] => true
      | x :: r =>
          if mark (ttype x) then
            match drop_words r with
            | y :: q :: r' => tt_eqb (ttype y) (ttype x) && wordb q && orderlyb f r'
            | _ => false
            end
          else tameb x && orderlyb f r
      end
  end.
Lemma tt_eqb_eq a b : tt_eqb a b = true -> a = b.
Proof. destruct a, b; try reflexivity; discriminate. Qed.
Lemma wordb_ok t : wordb t = true -> word t.
Proof. intros H. apply orb_true_iff in H as [H|H]; apply tt_eqb_eq in H; [now left|now right]. Qed.
Lemma enclosedb_ok n s : enclosedb n s = true -> enclosed n s.
Proof. intros H. apply andb_true_iff in H as [A B]. apply Nat.leb_le in A. rewrite forallb_forall in B. split; assumption. Qed.
Lemma neg_beqb a b : negb (beqb a b) = true -> a <> b.
Proof. intros H ->. now rewrite beqb_refl in H. Qed.
Lemma memc_not c s : memc c s = false -> ~ In c s.
Proof.
  induction s as [|d s IH]; [auto|]. cbn. intros H [->|X]; [now rewrite Ascii.eqb_refl in H|]. apply orb_false_iff in H as [_ H]. now apply IH.
Qed.
Lemma tameb_ok t : tameb t = true -> tame t.
Proof.
  unfold tameb, tame. destruct (ttype t); cbn [mark negb]; intros H; try exact I; try discriminate; try (now apply enclosedb_ok).
  - apply andb_true_iff in H as [H D]. apply andb_true_iff in H as [H B]. apply andb_true_iff in H as [H N]. apply negb_true_iff in N.
    split; [now apply enclosedb_ok|]. split; [now apply memc_not|]. split; now apply neg_beqb.
  - destruct (token_text t) as [|c r]; [discriminate|]. apply andb_true_iff in H as [A B]. apply Ascii.eqb_eq in A. subst. exists r. split; [reflexivity|].
    now apply neg_beqb.
Qed.
Lemma drop_words_spec l : exists ws, l = ws ++ drop_words l /\ Forall word ws.
Proof.
  induction l as [|t l (ws & E & F)]; [exists []; auto|]. cbn. destruct (wordb t) eqn:W; [|exists []; auto].
  exists (t :: ws). split; [cbn; congruence|]. constructor; [now apply wordb_ok|exact F].
Qed.
Lemma orderlyb_ok f : forall l, orderlyb f l = true -> orderly l.
Proof.
  induction f as [|f IH]; intros l H; [discriminate|]. cbn [orderlyb] in H. destruct l as [|x r]; [constructor|].
  destruct (mark (ttype x)) eqn:M.
  - destruct (drop_words_spec r) as (ws & E & F). destruct (drop_words r) as [|y [|q r']]; try discriminate.
    apply andb_true_iff in H as [H D]. apply andb_true_iff in H as [A B]. rewrite E. constructor; auto; [now apply tt_eqb_eq|now apply wordb_ok].
  - apply andb_true_iff in H as [A B]. constructor; [now apply tameb_ok|now apply IH].
Qed.
