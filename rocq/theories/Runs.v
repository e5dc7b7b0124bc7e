(** * How the parser can end, and what it does to the graph and the file stack

    One traversal of the parser: whether it can end in [Hang] or [Exit], that it keeps the
    origin and the stack of files, and that the graph only changes by pushing blocks and
    adding a header. *)
From Verif Require Import Base World Location Token Scanner Meta Inline Block Asg Parser ScanLemmas GraphLemmas.
Local Open Scope char_scope.
Local Open Scope nat_scope.

(** how the graph changes *)
Section Steps.
  Variable w : world.
  Inductive steps : asg -> asg -> Prop :=
  | steps_refl a : steps a a
  | steps_push a b c d : steps a b -> asg_push_block b c = Ok d -> steps a d
  | steps_header a b h attrs : steps a b -> steps a (asg_add_header w b h attrs).
  Lemma steps_trans a b c : steps a b -> steps b c -> steps a c.
  Proof. intros H K. induction K; [exact H|eapply steps_push; [apply IHK; exact H|eassumption]|apply steps_header; auto]. Qed.
End Steps.

Section Runs.
  Variable w : world.
  (** whether [Hang], [Exit] are allowed *)
  Variable hang exit : bool.
  Definition sane {E A} (m : res E A) : Prop :=
    match m with Hang => hang = true | Exit => exit = true | _ => True end.
  Definition same (p q : pstate) : Prop :=
    p_files p = p_files q /\ p_origin p = p_origin q /\ p_resolve p = p_resolve q /\ steps w (p_asg p) (p_asg q).
  Definition runs (p : pstate) (m : result pstate) : Prop := sane m /\ forall q, m = Ok q -> same p q.

  Lemma same_refl p : same p p.
  Proof. repeat split; constructor. Qed.
  Lemma same_trans p q r : same p q -> same q r -> same p r.
  Proof. intros (A & B & C & D) (A' & B' & C' & D'). repeat split; try congruence. eapply steps_trans; eassumption. Qed.
  Lemma sane_bind {E A B} (m : res E A) (k : A -> res E B) : sane m -> (forall x, m = Ok x -> sane (k x)) -> sane (bind m k).
  Proof. destruct m; cbn; auto. Qed.
  Lemma runs_ok p q : same p q -> runs p (Ok q).
  Proof. intros S. split; [exact I|intros r [= <-]; exact S]. Qed.
  Lemma runs_err p e : runs p (Err e).
  Proof. split; [exact I|discriminate]. Qed.
  Lemma runs_panic p : runs p Panic.
  Proof. split; [exact I|discriminate]. Qed.
  Lemma runs_from p q m : same p q -> runs q m -> runs p m.
  Proof. intros S [A B]. split; [exact A|]. intros r E. eapply same_trans; eauto. Qed.
  Lemma runs_bind p m k : runs p m -> (forall q, m = Ok q -> runs q (k q)) -> runs p (bind m k).
  Proof.
    intros [A B] H. split; [apply sane_bind; [exact A|intros x E; apply H, E]|]. intros q E. destruct m; try discriminate. cbn in E.
    eapply same_trans; [apply B; reflexivity|]. now apply (H _ eq_refl).
  Qed.
  Lemma runs_val {A} p (m : result A) k : sane m -> (forall x, m = Ok x -> runs p (k x)) -> runs p (bind m k).
  Proof.
    intros S H. split; [apply sane_bind; [exact S|intros x E; apply H, E]|]. intros q E. destruct m; try discriminate. now apply (H _ eq_refl).
  Qed.

  Ltac sn :=
    repeat first
      [ exact I
      | match goal with
        | |- sane (if ?b then _ else _) => destruct b
        | |- sane (bind _ _) => apply sane_bind; [|intros ? _]
        | |- sane (let (_, _) := ?e in _) => destruct e
        | |- sane (match ?e with _ => _ end) => destruct e
        end ].
  (** ** The graph *)
  Lemma slice_sane {E} s a b : sane (slice (E := E) s a b).
  Proof. unfold slice. destruct (_ && _); exact I. Qed.
  Lemma inner_sane {E} s a b : sane (inner (E := E) s a b).
  Proof. unfold inner. destruct (_ <? _); [exact I|apply slice_sane]. Qed.
  Hint Resolve slice_sane inner_sane : sane.
  Ltac sane1 := sn; auto with sane.
  Lemma upd_last_sane {A E} (f : A -> res E A) l : (forall x, In x l -> sane (f x)) -> sane (upd_last f l).
  Proof.
    induction l as [|x l IH]; intros H; [exact I|]. cbn [upd_last]. destruct l as [|y l].
    - apply sane_bind; [apply H; now left|intros; exact I].
    - apply sane_bind; [apply IH; intros z Z; apply H; now right|intros; exact I].
  Qed.
  Lemma inline_push_sane i c : sane (inline_push i c).
  Proof. destruct i; exact I. Qed.
  Lemma produce_sane i : sane (produce_literal i).
  Proof. destruct i; try exact I. cbn. destruct (span_marker v); exact I. Qed.
  Lemma prepend_sane i v o : sane (prepend_literal i v o).
  Proof. destruct i; exact I. Qed.
  Hint Resolve inline_push_sane produce_sane prepend_sane : sane.
  Lemma extract_children_sane i : sane (extract_children i).
  Proof.
    induction i as [v f l m loc o IH | | | ] using inline_ind2; try exact I. cbn [extract_children].
    induction l as [|x l IHl]; [exact I|]. inversion IH as [|? ? H1 H2]. subst.
    apply sane_bind; [|intros ? _; apply sane_bind; [apply IHl; exact H2|intros; exact I]].
    destruct (is_open x); [|exact I]. apply sane_bind; [apply produce_sane|]. intros lit _. apply sane_bind; [exact H1|]. intros [|k ks] _; [exact I|].
    apply sane_bind; [apply prepend_sane|intros; exact I].
  Qed.
  Lemma close_sane i : sane (inline_close i).
  Proof. destruct i; exact I. Qed.
  Lemma add_meta_sane i m : sane (inline_add_metadata i m).
  Proof. destruct i; exact I. Qed.
  Lemma consolidate_token_sane i t : sane (consolidate_from_token i t).
  Proof. destruct i; exact I. Qed.
  Lemma span_sane t : sane (span_from_token t).
  Proof. unfold span_from_token. sane1. Qed.
  Lemma ref_text_sane i t b : sane (ref_text_from_token i t b).
  Proof. unfold ref_text_from_token. sane1. Qed.
  Lemma new_xref_sane t : sane (new_xref t).
  Proof. unfold new_xref. sane1. Qed.
  Hint Resolve extract_children_sane close_sane add_meta_sane consolidate_token_sane span_sane ref_text_sane new_xref_sane : sane.
  Lemma push_all_sane l : forall i, sane (inline_push_all i l).
  Proof. induction l as [|c l IH]; intros i; [exact I|]. cbn. apply sane_bind; [apply inline_push_sane|intros; apply IH]. Qed.

  Lemma key_values_sane a : sane (key_values_from_named_attribute a).
  Proof. unfold key_values_from_named_attribute. sane1. Qed.
  Lemma process_attribute_sane m n a : sane (process_attribute m n a).
  Proof. unfold process_attribute. sane1. Qed.
  Hint Resolve key_values_sane process_attribute_sane : sane.
  Lemma process_one_sane m n a : sane (process_one m n a).
  Proof. unfold process_one. sane1. Qed.
  Lemma process_from_sane l : forall m n, sane (process_from m n l).
  Proof. induction l as [|a l IH]; intros m n; [exact I|]. cbn. apply sane_bind; [apply process_one_sane|intros; apply IH]. Qed.
  Lemma process_sane m l : sane (process_attributes m l).
  Proof. apply process_from_sane. Qed.
  Hint Resolve process_sane : sane.
  Lemma inline_meta_sane t : sane (new_inline_meta_from_token t).
  Proof. unfold new_inline_meta_from_token. sane1. Qed.
  Lemma block_meta_sane t : sane (new_block_meta_from_token w t).
  Proof. unfold new_block_meta_from_token. destruct (ttype t); sane1. Qed.
  Lemma add_token_meta_sane m t : sane (add_metadata_from_token w m t).
  Proof. unfold add_metadata_from_token. destruct (ttype t); sane1. Qed.
  Lemma simplify_sane m : sane (simplify_cols m).
  Proof. unfold simplify_cols. sane1. Qed.
  Lemma target_sane t : sane (target_and_attrs_from_token w t).
  Proof. unfold target_and_attrs_from_token. destruct (ttype t); sane1. Qed.
  Hint Resolve inline_meta_sane block_meta_sane add_token_meta_sane simplify_sane target_sane : sane.

  Lemma push_inline_sane b i : sane (push_inline b i).
  Proof. destruct b as [[] ? ? ?]; exact I. Qed.
  Lemma push_block_sane b : forall nb, sane (push_block b nb).
  Proof.
    induction b as [h m k loc IH] using block_ind2. intros nb. cbn [push_block]. apply sane_bind; [|intros; exact I]. rewrite Forall_forall in IH.
    destruct h; try exact I.
    - destruct (is_section nb); [|exact I]. destruct (last_opt k); [|exact I]. destruct (takes_block _ _); [|exact I]. apply upd_last_sane. intros x X. now apply IH.
    - destruct (is_list_item nb).
      + destruct (last_opt k); [|exact I]. destruct (is_list _); [|exact I]. apply upd_last_sane. intros x X. apply sane_bind; [now apply IH|intros; exact I].
      + destruct (_ && _); exact I.
  Qed.
  Lemma block_line_sane b : sane (block_line b).
  Proof. unfold block_line. sane1. Qed.
  Hint Resolve push_inline_sane push_block_sane block_line_sane : sane.
  Lemma table_info_sane b : exit = true -> sane (consolidate_table_info b).
  Proof.
    intros X. unfold consolidate_table_info. destruct b as [[] ? k loc]; try exact I. destruct k as [|c0 [|c1 k]]; try exact I.
    apply sane_bind; [apply block_line_sane|]. intros l0 _. apply sane_bind; [apply block_line_sane|]. intros l1 _. apply sane_bind.
    - destruct (l0 =? l1); [|exact I]. destruct loc; exact I.
    - intros [m'|] _; [|exact X]. apply sane_bind; [apply simplify_sane|intros; exact I].
  Qed.
  Lemma add_metadata_sane b m : sane (add_metadata b m).
  Proof. unfold add_metadata. destruct (meta_is_empty m); [exact I|]. destruct b as [[] ? ? ?]; exact I. Qed.
  Lemma add_locations_sane b l : sane (add_locations b l).
  Proof. destruct b as [[] ? ? ?]; exact I. Qed.
  Lemma leaf_sane t : sane (leaf_from_token t).
  Proof. unfold leaf_from_token. destruct (ttype t); exact I. Qed.
  Lemma parent_sane t : sane (parent_from_token t).
  Proof. unfold parent_from_token. destruct (ttype t); exact I. Qed.
  Lemma asg_push_sane a b : sane (asg_push_block a b).
  Proof.
    unfold asg_push_block. apply sane_bind; [|intros; exact I]. destruct (is_section _); [|exact I]. destruct (last_opt _); [|exact I].
    destruct (takes_block _ _); [|exact I]. apply upd_last_sane. intros x _. apply push_block_sane.
  Qed.
  Hint Resolve add_metadata_sane add_locations_sane leaf_sane parent_sane asg_push_sane push_all_sane : sane.
  Lemma push_inlines_sane l : forall b, sane (push_inlines b l).
  Proof. induction l as [|i l IH]; intros b; [exact I|]. cbn. apply sane_bind; [apply push_inline_sane|intros; apply IH]. Qed.
  Lemma push_blocks_sane l : forall b, sane (push_blocks b l).
  Proof. induction l as [|i l IH]; intros b; [exact I|]. cbn. apply sane_bind; [apply push_block_sane|intros; apply IH]. Qed.
  Hint Resolve push_inlines_sane push_blocks_sane : sane.

  (** ** The parser *)
  Create HintDb runs discriminated.
  Ltac same1 := first [apply same_refl | assumption | repeat split; solve [reflexivity|constructor|assumption]].
  Ltac rn :=
    repeat first
      [ apply runs_err | apply runs_panic
      | match goal with
        | |- runs _ (Ok _) => apply runs_ok; same1
        | |- runs _ (if ?b then _ else _) => destruct b
        | |- runs _ (let (_, _) := ?e in _) => destruct e
        | |- runs _ (bind (A := pstate) _ _) => apply runs_bind; [|intros ? _]
        | |- runs _ (bind _ _) => apply runs_val; [solve [sane1]|intros ? _]
        | |- runs _ (match ?e with _ => _ end) => destruct e
        | |- runs ?p (?f ?q) => solve [eapply (runs_from p q); [same1|solve [auto with runs]]]
        end ].
  Lemma r_add_last pass t p : runs p (add_to_last_inline pass t p).
  Proof. unfold add_to_last_inline. rn. Qed.
  Lemma r_add_text t p : runs p (add_text_to_last_inline t p).
  Proof. apply r_add_last. Qed.
  Lemma r_pass_text t p : runs p (pass_text_to_last_inline t p).
  Proof. apply r_add_last. Qed.
  Hint Resolve r_add_text r_pass_text : runs.
  Lemma r_dangling p : runs p (handle_dangling_spans p).
  Proof. unfold handle_dangling_spans. rn. Qed.
  Lemma r_push_stack b p : runs p (push_block_to_stack b p).
  Proof. unfold push_block_to_stack. rn. Qed.
  Hint Resolve r_dangling r_push_stack : runs.
  Lemma r_paragraph p : runs p (new_paragraph p).
  Proof. unfold new_paragraph. cbv zeta. rn. Qed.
  Hint Resolve r_paragraph : runs.
  Lemma r_add_inlines p : runs p (add_inlines_to_block_stack p).
  Proof. unfold add_inlines_to_block_stack. rn. Qed.
  Hint Resolve r_add_inlines : runs.
  Lemma r_add_meta t p : runs p (p_add_metadata_from_token w t p).
  Proof. unfold p_add_metadata_from_token. rn. Qed.
  Hint Resolve r_add_meta : runs.
  Lemma r_last_item p : runs p (add_last_list_item_to_list p).
  Proof. unfold add_last_list_item_to_list. rn. Qed.
  Lemma r_asg_push b p : runs p (p_asg_push b p).
  Proof.
    unfold p_asg_push. apply runs_val; [apply asg_push_sane|]. intros a E. apply runs_ok. repeat split. cbn. eapply steps_push; [constructor|exact E].
  Qed.
  Hint Resolve r_last_item r_asg_push : runs.
  Lemma take_metadata_inv b p b' q : take_metadata b p = Ok (b', q) -> same p q.
  Proof.
    unfold take_metadata. destruct (p_meta p); [|intros [= <- <-]; apply same_refl]. destruct (add_metadata b m); try discriminate. intros [= <- <-]. same1.
  Qed.
  Lemma r_take b p k : (forall b' q, same p q -> runs q (k b' q)) -> runs p (let* (b', q) := take_metadata b p in k b' q).
  Proof.
    intros H. apply runs_val; [unfold take_metadata; sane1|]. intros [b' q] E. apply take_metadata_inv in E. eapply runs_from; [exact E|]. now apply H.
  Qed.
  Lemma r_stack_or_graph b p : runs p (add_to_block_stack_or_graph b p).
  Proof.
    unfold add_to_block_stack_or_graph. cbv zeta. destruct (p_bstack p) as [|l r]; [|destruct (takes_block l b); [rn|]].
    - apply (r_take b p (fun b' q => p_asg_push b' q)). intros. apply r_asg_push.
    - apply (r_take b p (fun b' q => p_asg_push b' q)). intros. apply r_asg_push.
  Qed.
  Lemma r_last_stack_or_graph p : runs p (add_last_to_block_stack_or_graph p).
  Proof. unfold add_last_to_block_stack_or_graph. rn. Qed.
  Lemma r_last_to_graph p : runs p (add_last_block_to_graph p).
  Proof.
    unfold add_last_block_to_graph. destruct (p_bstack p) as [|b0 r]; [rn|]. eapply (runs_from p (set_bstack r p)); [same1|].
    apply (r_take b0 (set_bstack r p) (fun b p => match r with
      | l :: r' => if takes_block l b then let* l' := push_block l b in Ok (set_bstack (l' :: r') p) else p_asg_push b p
      | [] => p_asg_push b p end)). intros b q _. rn.
  Qed.
  Hint Resolve r_stack_or_graph r_last_stack_or_graph r_last_to_graph : runs.
  Lemma last_to_graph_shorter p q : add_last_block_to_graph p = Ok q -> p_bstack p <> [] -> List.length (p_bstack q) < List.length (p_bstack p).
  Proof.
    unfold add_last_block_to_graph. destruct (p_bstack p) as [|b0 r] eqn:B; [congruence|]. intros H _.
    apply bind_ok in H as ([b q1] & T & H).
    assert (p_bstack q1 = r) as E.
    { revert T. unfold take_metadata. destruct (p_meta _); [|intros [= <- <-]; reflexivity]. destruct (add_metadata b0 m); try discriminate. intros [= <- <-]. reflexivity. }
    destruct r as [|l r'].
    - unfold p_asg_push in H. apply bind_ok in H as (a & _ & H). injection H as <-. cbn. rewrite E. cbn. lia.
    - destruct (takes_block l b).
      + apply bind_ok in H as (l' & _ & H). injection H as <-. cbn. lia.
      + unfold p_asg_push in H. apply bind_ok in H as (a & _ & H). injection H as <-. cbn. rewrite E. cbn. lia.
  Qed.
  Lemma r_flush f : forall n p, List.length (p_bstack p) <= f -> runs p (flush_blocks f n p).
  Proof.
    induction f as [|f IH]; intros n p L; cbn [flush_blocks].
    - destruct (p_bstack p); [|cbn in L; lia]. cbn. rn.
    - destruct (_ <=? n) eqn:E; [rn|]. apply runs_bind; [apply r_last_to_graph|]. intros q Q. apply IH.
      apply last_to_graph_shorter in Q; [lia|]. intros B. rewrite B in E. discriminate.
  Qed.
  Lemma r_flush_to n p : runs p (flush_to n p).
  Proof. apply r_flush. lia. Qed.
  Hint Resolve r_flush_to : runs.
  Lemma r_header p : runs p (check_and_move_header w p).
  Proof.
    unfold check_and_move_header. apply runs_bind; [apply r_add_inlines|]. intros q _. apply runs_ok.
    destruct (p_header q) as [h|]; [|same1]. destruct (hd_title h); [same1|]. repeat split. cbn. apply steps_header. constructor.
  Qed.
  Hint Resolve r_header : runs.
  Lemma add_i8_sane a b : sane (add_i8 (E := error) w a b).
  Proof. unfold add_i8. sane1. Qed.
  Hint Resolve add_i8_sane : sane.
  Lemma r_offset v p : runs p (parse_level_offset w v p).
  Proof. unfold parse_level_offset. rn. Qed.
  Hint Resolve r_offset : runs.
  Lemma r_attribute t p : runs p (parse_attribute w t p).
  Proof. unfold parse_attribute. cbv zeta. rn. Qed.
  Lemma r_block_attributes t p : runs p (parse_block_attributes w t p).
  Proof. unfold parse_block_attributes. rn. Qed.
  Lemma r_inline_attributes t p : runs p (parse_inline_element_attributes t p).
  Proof. unfold parse_inline_element_attributes. rn. Qed.
  Lemma r_newline t p : runs p (parse_new_line_char w t p).
  Proof.
    unfold parse_new_line_char. cbv zeta.
    set (q := match p_title (set_in_line false p) with Some ti => _ | None => _ end).
    assert (same p q) as S by (unfold q; destruct (p_title _); same1). eapply runs_from; [exact S|]. clearbody q. rn.
  Qed.
  Lemma r_break v t p : runs p (parse_break v t p).
  Proof. unfold parse_break. rn. Qed.
  Lemma r_dlist t p : runs p (parse_description_list_term t p).
  Proof. unfold parse_description_list_term. cbv zeta. rn. Qed.
  Lemma r_ordered t p : runs p (parse_ordered_list_item t p).
  Proof. unfold parse_ordered_list_item. cbv zeta. rn. Qed.
  Lemma r_unordered t p : runs p (parse_unordered_list_item t p).
  Proof. unfold parse_unordered_list_item. cbv zeta. rn. Qed.
  Lemma level_sane t p : sane (get_heading_level w t p).
  Proof. unfold get_heading_level. sane1. Qed.
  Hint Resolve level_sane : sane.
  Lemma r_headings t p : runs p (parse_section_headings w t p).
  Proof. unfold parse_section_headings. rn. Qed.
  Hint Resolve r_headings : runs.
  Lemma r_title t p : runs p (parse_title w t p).
  Proof. unfold parse_title. rn. Qed.
  Lemma r_admonition t p : runs p (parse_admonition_para_syntax t p).
  Proof. unfold parse_admonition_para_syntax. rn. Qed.
  Lemma r_continuation p : runs p (parse_block_continuation p).
  Proof. unfold parse_block_continuation. rn. Qed.
  Lemma r_span_new i p : runs p (parse_inline_span_new i p).
  Proof.
    unfold parse_inline_span_new. apply runs_bind; [rn|]. intros q _. apply runs_bind; [rn|]. intros q' _. destruct (p_meta q') as [m|].
    - destruct (inline_add_metadata i m) eqn:E; cbn; try (pose proof (add_meta_sane i m) as S; rewrite E in S; split; [exact S|discriminate]). rn.
    - cbn. rn.
  Qed.
  Hint Resolve r_span_new : runs.
  Lemma r_span i p : runs p (parse_inline_span i p).
  Proof.
    unfold parse_inline_span. destruct (p_istack p) as [|l r]; [rn|]. destruct (inline_eqb i l); [rn|]. destruct l as [v f kids m loc o| | |]; try solve [rn].
    destruct (last_opt kids); [|rn]. destruct (inline_eqb i _); [|rn]. apply runs_val; [apply upd_last_sane; intros; apply close_sane|]. intros x _. rn.
  Qed.
  Lemma check_target_sane n t p : sane (check_target w n t p).
  Proof. unfold check_target, resolve_target. sane1. Qed.
  Hint Resolve check_target_sane : sane.
  Lemma r_image t p : runs p (parse_block_image w t p).
  Proof.
    unfold parse_block_image. apply runs_val; [sane1|]. intros [target m] _. apply runs_val; [sane1|]. intros _ _.
    set (x := match p_meta p with Some pm => _ | None => _ end). assert (same p (snd x)) as S by (unfold x; destruct (p_meta p); same1).
    destruct x as [m' q]. cbn in S. set (y := match p_title q with Some c => _ | None => _ end).
    assert (same q (snd y)) as S' by (unfold y; destruct (p_title q); same1). destruct y as [c q']. cbn in S'.
    eapply runs_from; [exact S|]. eapply runs_from; [exact S'|]. apply r_stack_or_graph.
  Qed.
  Lemma r_inline_image t p : runs p (parse_inline_image_macro w t p).
  Proof. unfold parse_inline_image_macro. rn. Qed.
  Lemma r_footnote t p : runs p (parse_footnote_macro t p).
  Proof. unfold parse_footnote_macro. rn. Qed.
  Lemma r_macro_close t p : runs p (parse_inline_macro_close t p).
  Proof. unfold parse_inline_macro_close. rn. Qed.
  Lemma r_flush_dangling lit p k : (forall q b, same p q -> runs q (k q b)) -> runs p (let* (q, b) := flush_dangling lit p in k q b).
  Proof.
    intros H. unfold flush_dangling. destruct (p_dangling p) as [nl|]; [|cbn; apply H, same_refl]. destruct (p_preserve_nl p); [cbn; eapply runs_from; [|apply H]; same1|].
    destruct (r_add_text nl p) as [S E]. destruct (add_text_to_last_inline nl p) as [q| | | |]; cbn; try (split; [exact S|discriminate]).
    specialize (E _ eq_refl). eapply runs_from; [|apply H]; (eapply same_trans; [exact E|same1]).
  Qed.
  Lemma r_text t p : runs p (parse_text t p).
  Proof.
    unfold parse_text. apply (r_flush_dangling (lit_text t) p (fun q done => if (done : bool) then Ok q else add_text_to_last_inline t q)). intros q [] _; rn.
  Qed.
  Lemma r_pass t p : runs p (pass_text_through t p).
  Proof.
    unfold pass_text_through. apply (r_flush_dangling (lit_pass t) p (fun q done => if (done : bool) then Ok q else pass_text_to_last_inline t q)). intros q [] _; rn.
  Qed.
  Hint Resolve r_text r_pass : runs.
  Lemma r_charref t p : runs p (parse_charref t p).
  Proof.
    unfold parse_charref. cbv zeta. apply (r_flush_dangling (lit_charref t) p (fun p done => if (done : bool) then Ok p else
       match p_istack p with
    | (ISpan _ _ _ _ _ _ as s) :: r =>
        if p_in_span p then Ok (set_istack (span_add s (lit_charref t) :: r) p)
        else Ok (push_inline_back (lit_charref t) p)
    | IRef v tg l m loc :: r =>
        if negb (p_close_parent p)
        then Ok (set_istack (IRef v tg (l ++ [lit_charref t]) m loc :: r) p)
        else Ok (push_inline_back (lit_charref t) p)
    | _ => Ok (push_inline_back (lit_charref t) p)
    end)). intros q [] _; rn.
  Qed.
  Lemma r_reference t p : runs p (parse_attribute_reference t p).
  Proof. unfold parse_attribute_reference. cbv zeta. rn. Qed.
  Lemma r_xref t p : runs p (parse_cross_reference t p).
  Proof. unfold parse_cross_reference. rn. Qed.
  Lemma r_callout t p : runs p (parse_code_callout t p).
  Proof. unfold parse_code_callout. rn. Qed.
  Lemma r_leaf t p : runs p (parse_delimited_leaf_block t p).
  Proof. unfold parse_delimited_leaf_block. cbv zeta. rn. Qed.
  Hint Resolve r_leaf : runs.

  (** no block but a table is closed by anything but a table delimiter *)
  Lemma push_block_head b nb b' : push_block b nb = Ok b' -> is_table b' = is_table b.
  Proof.
    destruct b as [h m k loc]. cbn [push_block]. intros H. apply bind_ok in H as (k' & _ & H). injection H as <-. destruct h; try reflexivity; destruct (last_locs k'); reflexivity.
  Qed.
  Lemma push_blocks_head l : forall b b', push_blocks b l = Ok b' -> is_table b' = is_table b.
  Proof.
    induction l as [|x l IH]; intros b b' H; cbn in H; [now injection H as <-|]. apply bind_ok in H as (b1 & H1 & H). rewrite (IH _ _ H). eapply push_block_head, H1.
  Qed.
  Lemma parent_not_table t b : parent_from_token t = Ok b -> ttype t <> TTable -> forall m, parent_eqb m b = true -> is_table m = false.
  Proof.
    intros H N m E. unfold parent_from_token in H. destruct (ttype t); try discriminate; try congruence; injection H as <-; destruct m as [[] ? ? ?]; try reflexivity;
      unfold parent_eqb in E; cbn in E; destruct v; try discriminate; destruct n; try reflexivity; try discriminate; destruct p; discriminate.
  Qed.
  Lemma parent_title b ti m : parent_eqb m (set_block_title b ti) = parent_eqb m b.
  Proof. destruct b as [[] ? ? ?]; reflexivity. Qed.
  Lemma r_parent t p : exit = true \/ ttype t <> TTable -> runs p (parse_delimited_parent_block t p).
  Proof.
    intros X. unfold parse_delimited_parent_block. apply runs_val; [apply parent_sane|]. intros b0 B0. cbv zeta.
    set (x := match p_title (set_dangling None p) with Some ti => _ | None => _ end).
    assert (same p (snd x)) as S by (unfold x; destruct (p_title (set_dangling None p)); same1).
    assert (forall m, parent_eqb m (fst x) = parent_eqb m b0) as PE by (intros m; unfold x; destruct (p_title (set_dangling None p)); [apply parent_title|reflexivity]).
    destruct x as [block q]. cbn [fst snd] in *. eapply runs_from; [exact S|]. clear S.
    destruct (split_at_first is_parent (p_bstack q)) as [[[above matched] below]|]; [|rn].
    destruct (parent_eqb matched block) eqn:M; [|rn]. apply runs_bind; [rn|]. intros q1 _. destruct (p_open_lines q1) as [|l0 lines]; [rn|].
    apply runs_val; [sane1|]. intros _ _. destruct (_ <? _); [rn|].
    apply runs_val; [destruct matched; sane1|]. intros b Hb. apply runs_val.
    { assert (exit = true \/ is_table b = false) as [X'|X'].
      { destruct X as [X|X]; [now left|right]. rewrite PE in M. pose proof (parent_not_table _ _ B0 X _ M) as T. destruct matched as [h m k loc].
        apply push_blocks_head in Hb. rewrite Hb. exact T. }
      - destruct (is_table b); [now apply table_info_sane|exact I].
      - rewrite X'. exact I. }
    intros b' _. rn.
  Qed.
  Lemma r_quote_verse t p : ttype t <> TTable -> runs p (parse_quote_verse t p).
  Proof. intros X. assert (runs p (parse_delimited_parent_block t p)) as R by (apply r_parent; now right). unfold parse_quote_verse. rn; exact R. Qed.
  Lemma r_comment t p : runs p (parse_comment_block t p).
  Proof. unfold parse_comment_block. rn. Qed.
  Hint Resolve r_attribute r_block_attributes r_inline_attributes r_newline r_break r_dlist r_ordered r_unordered r_title r_admonition r_continuation
    r_span r_image r_inline_image r_footnote r_macro_close r_charref r_reference r_xref r_callout r_comment : runs.
  Lemma r_dispatch t p : ttype t <> TInclude -> ttype t <> TTableCell -> exit = true \/ ttype t <> TTable -> runs p (dispatch w t p).
  Proof.
    intros NI NC X. assert (runs p (parse_delimited_parent_block t p)) as R by now apply r_parent. assert (ttype t = TQuoteVerseBlock -> runs p (parse_quote_verse t p)) as Q.
    { intros E. apply r_quote_verse. congruence. }
    unfold dispatch. destruct (ttype t); try congruence; try exact R; try (now apply Q); rn.
  Qed.

  (** ** Includes and cells *)
  Variable OKT : nat -> list bytes -> token -> Prop.
  Variable origin : bytes.
  Hypothesis OK_table : forall f fs t, OKT f fs t -> ttype t = TTable -> exit = true.
  Hypothesis OK_include0 : forall fs t, OKT 0 fs t -> ttype t = TInclude \/ ttype t = TTableCell -> hang = true.
  Hypothesis OK_read : forall f fs t target m path, OKT (S f) fs t -> ttype t = TInclude -> target_and_attrs_from_token w t = Ok (target, m) ->
    w_canon w (resolve_path origin fs target) = Some path -> w_read w path = None -> exit = true.
  Hypothesis OK_include : forall f fs t target m path content, OKT (S f) fs t -> ttype t = TInclude -> target_and_attrs_from_token w t = Ok (target, m) ->
    w_canon w (resolve_path origin fs target) = Some path -> w_read w path = Some content ->
    Forall (OKT f (fs ++ [target])) (fst (scan_stream content (fs ++ [target]))) /\ sane (snd (scan_stream content (fs ++ [target]))).
  Hypothesis OK_cell : forall f fs t contents, OKT (S f) fs t -> ttype t = TTableCell ->
    slice (token_text t) 1 (List.length (token_text t)) = (Ok contents : result bytes) ->
    Forall (fun x => OKT f fs (update_token_loc_offsets_by x (tline t) (startcol t))) (fst (scan_stream contents [])) /\ sane (snd (scan_stream contents [])).

  Lemma page_ranges_sane s : sane (extract_page_ranges w s).
  Proof.
    unfold extract_page_ranges. induction (split_on _ s) as [|x l IH]; [exact I|]. cbn [range_fields]. apply sane_bind; [|intros ? _; apply sane_bind; [exact IH|intros; exact I]].
    unfold range_field, succ_i32. cbv zeta. sane1.
  Qed.
  Hint Resolve page_ranges_sane : sane.
  Lemma spec_sane target m : sane (include_spec_of w target m).
  Proof. unfold include_spec_of. cbv zeta. sane1. Qed.
  Lemma tag_sane t : sane (token_tag t).
  Proof. unfold token_tag. sane1. Qed.
  Lemma step_sane s st t : sane (include_step s st t).
  Proof.
    unfold include_step. destruct (include_lines_step _ _ _) as [keep lines]. destruct (negb keep); [exact I|]. apply sane_bind; [|intros [? ?] _; exact I].
    unfold include_tags_step. destruct (inc_tags s); [exact I|]. apply sane_bind; [apply tag_sane|]. intros tag _. destruct (ttype t), tag; sane1.
  Qed.
  Lemma r_include_loop (rec : token -> pstate -> result pstate) s fs ts :
    (forall t p, In t ts -> p_files p = fs -> p_origin p = origin -> runs p (rec t p)) ->
    forall st p, p_files p = fs -> p_origin p = origin -> runs p (include_loop rec s st ts p).
  Proof.
    intros R. induction ts as [|t ts IH]; intros st p F O; [cbn [include_loop]; rn|]. cbn [include_loop]. apply runs_val; [apply step_sane|]. intros [keep st'] _.
    assert (forall t p, In t ts -> p_files p = fs -> p_origin p = origin -> runs p (rec t p)) as R' by (intros t' q I; apply R; now right).
    destruct keep; [|now apply IH]. apply runs_bind.
    - destruct (inc_adoc s); [|rn]. apply runs_bind; [apply R; auto; now left|]. intros q _. rn.
    - intros q E. assert (same p q) as (A & B & _).
      { destruct (inc_adoc s).
        - apply bind_ok in E as (q1 & E1 & E). injection E as <-. destruct (R t p (or_introl eq_refl) F O) as [_ S]. eapply same_trans; [apply S; exact E1|same1].
        - destruct (r_text t (set_last (if tt_eqb (ttype t) TEof then TEof else TText) p)) as [_ S]. eapply same_trans; [|apply S; exact E]. same1. }
      apply IH; [exact R'|congruence|congruence].
  Qed.
  Lemma r_cell_loop (rec : token -> pstate -> result pstate) fs line col ts :
    (forall t p, In t ts -> p_files p = fs -> p_origin p = origin -> runs p (rec (update_token_loc_offsets_by t line col) p)) ->
    forall p, p_files p = fs -> p_origin p = origin -> runs p (cell_loop rec line col ts p).
  Proof.
    induction ts as [|t ts IH]; intros R p F O; [cbn [cell_loop]; rn|]. cbn [cell_loop]. apply runs_bind; [apply R; auto; now left|]. intros q E.
    destruct (R t p (or_introl eq_refl) F O) as [_ S]. destruct (S _ E) as (A & B & _). apply IH; [intros t' q' I; apply R; now right|congruence|congruence].
  Qed.
  Lemma resolve_target_sane n t p : sane (resolve_target w n t p).
  Proof. unfold resolve_target. sane1. Qed.
  Lemma removelast_snoc' {A} (l : list A) x : removelast (l ++ [x]) = l.
  Proof. rewrite removelast_app by discriminate. apply app_nil_r. Qed.

  Lemma r_token_into f : forall t p, OKT f (p_files p) t -> p_origin p = origin -> runs p (token_into w f t p).
  Proof.
    induction f as [|f IH]; intros t p OK O.
    - cbn [token_into]. apply runs_bind; [rn|]. intros q Q.
      assert (same p q) as S by (destruct (p_header p); [destruct (can_be_in_document_header t); [injection Q as <-; same1|now apply (r_header p)]|injection Q as <-; same1]).
      destruct S as (F & _). rewrite F in OK. destruct (pre_dispatch t q); [rn|rn|].
      assert (ttype t = TInclude \/ ttype t = TTableCell -> hang = true) as H by exact (OK_include0 _ _ OK).
      assert (ttype t <> TInclude -> ttype t <> TTableCell -> runs q (dispatch w t q)) as D.
      { intros N1 N2. apply r_dispatch; auto. destruct (ttype t) eqn:E; try (right; discriminate). left. eapply OK_table; eauto. }
      destruct (ttype t) eqn:T; try (apply D; congruence); (split; [apply H; auto|discriminate]).
    - cbn [token_into]. apply runs_bind; [rn|]. intros q Q.
      assert (same p q) as S by (destruct (p_header p); [destruct (can_be_in_document_header t); [injection Q as <-; same1|now apply (r_header p)]|injection Q as <-; same1]).
      destruct S as (F & O' & _). rewrite F in OK. rewrite O' in O. destruct (pre_dispatch t q); [rn|rn|].
      assert (ttype t <> TInclude -> ttype t <> TTableCell -> runs q (dispatch w t q)) as D.
      { intros N1 N2. apply r_dispatch; auto. destruct (ttype t) eqn:E; try (right; discriminate). left. eapply OK_table; eauto. }
      destruct (ttype t) eqn:T; try (apply D; congruence); clear D.
      + (* a table cell *)
        unfold parse_table_cell. apply runs_val; [apply slice_sane|]. intros contents C. destruct (OK_cell _ _ _ _ OK T C) as [L E]. apply runs_bind; [rn|]. intros q1 Q1.
        assert (same q q1) as (F1 & O1 & _) by (now apply (r_push_stack (new_cell t) q)).
        destruct (scan_stream contents []) as [ts e]. cbn [fst snd] in *. rewrite Forall_forall in L. apply (runs_from _ (set_dangling None q1)); [same1|].
        apply runs_bind.
        * apply (r_cell_loop _ (p_files q)); [|cbn; congruence|cbn; congruence]. intros x r X FR OR. apply IH; [rewrite FR; now apply L|exact OR].
        * intros q2 _. apply runs_val; [exact E|]. intros [] _. rn.
      + (* an include *)
        unfold parse_include. destruct (target_and_attrs_from_token w t) as [[target m]| | | |] eqn:TA; cbn [bind];
          try (pose proof (target_sane t) as S; rewrite TA in S; split; [exact S|discriminate]).
        apply runs_bind; [rn|]. intros q1 Q1.
        assert (same q q1) as (F1 & O1 & S1).
        { destruct m as [md|]; [destruct (mget _ _) as [ofs|]; [now apply (r_offset ofs q)|]|]; injection Q1 as <-; same1. }
        apply runs_val; [apply spec_sane|]. intros spec _. apply runs_val; [apply resolve_target_sane|]. intros path P.
        unfold resolve_target in P. destruct (w_canon w (resolve_path (p_origin q1) (p_files q1) target)) as [pa|] eqn:CA; [|discriminate]. injection P as ->.
        rewrite <- F1, <- O1, O in CA. destruct (w_read w path) as [content|] eqn:RD.
        * destruct (OK_include _ _ _ _ _ _ _ OK T TA CA RD) as [L E]. cbn [p_files set_files].
          rewrite <- F1. destruct (scan_stream content (p_files q ++ [target])) as [ts e]. cbn [fst snd] in *. rewrite Forall_forall in L.
          assert (forall st p, p_files p = p_files q ++ [target] -> p_origin p = origin -> runs p (include_loop (token_into w f) spec st ts p)) as RL.
          { intros st p' FP OP. eapply r_include_loop; try eassumption. intros x r X FR OR. apply IH; [rewrite FR; now apply L|exact OR]. }
          set (q2 := set_files (p_files q ++ [target]) q1) in *.
          assert (p_files q2 = p_files q ++ [target]) as F2 by reflexivity. assert (p_origin q2 = origin) as O2 by (cbn; congruence).
          specialize (RL (inc_lines spec, None) q2 F2 O2).
          assert (runs q2 (let* p0 := include_loop (token_into w f) spec (inc_lines spec, None) ts q2 in
                           let* _ := e in let* p1 := add_inlines_to_block_stack p0 in flush_to (List.length (p_bstack q2)) p1)) as R.
          { apply runs_bind; [exact RL|]. intros q3 _. apply runs_val; [exact E|]. intros [] _. rn. }
          assert (forall r : pstate -> result pstate, forall z : result pstate, z = (let* p0 := include_loop (token_into w f) spec (inc_lines spec, None) ts q2 in
                           let* _ := e in let* p1 := add_inlines_to_block_stack p0 in let* p2 := flush_to (List.length (p_bstack q2)) p1 in r p2) ->
                  z = bind (let* p0 := include_loop (token_into w f) spec (inc_lines spec, None) ts q2 in
                           let* _ := e in let* p1 := add_inlines_to_block_stack p0 in flush_to (List.length (p_bstack q2)) p1) r) as AS.
          { intros r z ->. destruct (include_loop _ _ _ _ _); cbn; try reflexivity. destruct e; cbn; try reflexivity. destruct (add_inlines_to_block_stack _); reflexivity. }
          rewrite (AS _ _ eq_refl). clear AS. destruct R as [RS RE].
          split.
          { apply sane_bind; [exact RS|intros; exact I]. }
          intros r HR. apply bind_ok in HR as (q3 & E3 & HR). injection HR as <-. destruct (RE _ E3) as (A & B & C & D).
          destruct S1 as [S1 S2]. repeat split; cbn.
          -- rewrite <- A, F2. now rewrite removelast_snoc'.
          -- exact B.
          -- exact C.
          -- exact D.
        * split; [cbn; eapply OK_read; eauto|discriminate].
  Qed.
  Lemma r_parse_loop f ts : forall p, p_files p = [] -> p_origin p = origin -> Forall (OKT f []) ts -> runs p (parse_loop w f ts p).
  Proof.
    induction ts as [|t ts IH]; intros p F O L; [cbn [parse_loop]; rn|]. apply Forall_cons_iff in L as [L1 L2]. cbn [parse_loop]. rewrite <- F in L1.
    pose proof (r_token_into f t p L1 O) as R. apply runs_bind; [exact R|]. intros q E. destruct R as [_ S]. destruct (S _ E) as (A & B & _).
    apply (runs_from _ (set_last (ttype t) q)); [same1|]. apply IH; cbn; try congruence.
  Qed.
  Lemma r_parse f src resolve : Forall (OKT f []) (fst (scan_stream src [])) -> sane (snd (scan_stream src [])) ->
    sane (parse w f origin resolve src) /\ forall a, parse w f origin resolve src = Ok a -> exists a0, steps w new_asg a0 /\ a = asg_consolidate a0.
  Proof.
    intros L E. unfold parse, parse_with. set (p0 := set_asg new_asg (new_parser origin resolve)).
    pose proof (r_parse_loop f (fst (scan_stream src [])) p0 eq_refl eq_refl L) as R.
    assert (runs p0 (let* p := parse_loop w f (fst (scan_stream src [])) p0 in let* _ := snd (scan_stream src []) in
      let* p := add_inlines_to_block_stack p in flush_to 0 p)) as [RS RE].
    { apply runs_bind; [exact R|]. intros q _. apply runs_val; [exact E|]. intros [] _. rn. }
    destruct (parse_loop _ _ _ _) as [p1| | | |]; cbn in *; try (split; [exact RS|discriminate]).
    destruct (snd (scan_stream src [])) as [[]| | | |]; cbn in *; try (split; [exact RS|discriminate]).
    destruct (add_inlines_to_block_stack p1) as [p2| | | |]; cbn in *; try (split; [exact RS|discriminate]).
    destruct (flush_to 0 p2) as [p3| | | |]; cbn in *; try (split; [exact RS|discriminate]). split; [exact I|]. intros a [= <-]. exists (p_asg p3). split; [|reflexivity].
    apply (RE _ eq_refl).
  Qed.
End Runs.
