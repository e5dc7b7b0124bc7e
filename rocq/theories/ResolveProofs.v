(** * Looking for the files of pictures
    The parser that looks for the files does what the other does, or ends because one is missing. *)
From Verif Require Import Base World Location Token Scanner Meta Inline Block Asg Parser Cli SpecResolve.
Local Open Scope char_scope.
Local Open Scope nat_scope.

Section Resolve.
  Variable w : world.
  Definition keep {A} (put : bool -> A -> A) (b : bool) (out : result A) : result A := let* x := out in Ok (put b x).
  Definition eased {A} (put : bool -> A -> A) (g : bool -> result A) : Prop :=
    exists out, g false = keep put false out /\ (g true = keep put true out \/ missing w (g true)).
  Definition setr (b : bool) (p : pstate) : pstate :=
    mkP (p_origin p) (p_last p) (p_header p) (p_attrs p) (p_bstack p) (p_istack p) (p_files p) (p_title p) (p_meta p) (p_open_lines p) (p_open_type p) (p_offset p) (p_in_line p) (p_in_span p) (p_in_cont p) (p_force_new p) (p_preserve_nl p) (p_close_parent p) (p_dangling p) b (p_asg p).
  Definition put_l {A} (b : bool) (x : pstate * A) : pstate * A := (setr b (fst x), snd x).
  Definition put_r {A} (b : bool) (x : A * pstate) : A * pstate := (fst x, setr b (snd x)).
  Lemma eased_ext {A} (put : bool -> A -> A) g g' : (forall b, g' b = g b) -> eased put g -> eased put g'.
  Proof. intros E (out & H). exists out. now rewrite !E. Qed.
  Lemma eased_bind {A B} (putA : bool -> A -> A) (putB : bool -> B -> B) g (k : A -> result B) :
    eased putA g -> (forall x, eased putB (fun a => k (putA a x))) -> eased putB (fun a => bind (g a) k).
  Proof.
    intros (out & F & T) K.
    assert (missing w (g true) -> missing w (bind (g true) k)) as M by (intros (l & t & -> & H); exists l, t; auto).
    destruct out as [x|e| | |]; [destruct (K x) as (out & F2 & T2)|exists (Err e)|exists Panic|exists Hang|exists Exit];
      try (rewrite F; split; [reflexivity|]; destruct T as [T|T]; [left; now rewrite T | right; auto]).
    exists out. rewrite F. split; [exact F2|]. destruct T as [T|T]; [|right; auto]. rewrite T. exact T2.
  Qed.
  Lemma eased_ret {A} (put : bool -> A -> A) h : (forall a, h a = put a (h true)) -> eased put (fun a => Ok (h a)).
  Proof. intros H. exists (Ok (h true)). unfold keep. cbn [bind]. rewrite <- !H. auto. Qed.
  Lemma eased_err {A} (put : bool -> A -> A) e : eased put (fun _ => Err e).
  Proof. exists (Err e). auto. Qed.
  Lemma eased_panic {A} (put : bool -> A -> A) : eased put (fun _ => Panic).
  Proof. exists Panic. auto. Qed.
  Lemma eased_hang {A} (put : bool -> A -> A) : eased put (fun _ => Hang).
  Proof. exists Hang. auto. Qed.
  Lemma eased_exit {A} (put : bool -> A -> A) : eased put (fun _ => Exit).
  Proof. exists Exit. auto. Qed.
  Definition blindA {A} (put : bool -> A -> A) (f : pstate -> result A) : Prop :=
    forall o l h at_ bs_ is_ fi ti me ol ot off il isp ic fn pn cp da a,
      eased put (fun re => f (mkP o l h at_ bs_ is_ fi ti me ol ot off il isp ic fn pn cp da re a)).
  Notation blind := (blindA setr).

  Create HintDb resolving.
  Ltac nf := cbv beta iota zeta delta [p_origin p_last p_header p_attrs p_bstack p_istack p_files p_title p_meta p_open_lines p_open_type p_offset p_in_line p_in_span p_in_cont p_force_new p_preserve_nl p_close_parent p_dangling p_resolve p_asg set_last set_header set_attrs set_bstack set_istack set_files set_title set_meta set_open_lines set_open_type set_offset set_in_line set_in_span set_in_cont set_force_new set_preserve_nl set_close_parent set_dangling set_asg setr put_l put_r fst snd push_inline_back].
  Ltac leaf :=
    lazymatch goal with
    | |- eased _ (fun _ => Ok _) => apply eased_ret; reflexivity
    | |- eased _ (fun _ => Err _) => apply eased_err
    | |- eased _ (fun _ => Panic) => apply eased_panic
    | |- eased _ (fun _ => Hang) => apply eased_hang
    | |- eased _ (fun _ => Exit) => apply eased_exit
    end.
  Ltac go :=
    nf;
    first
    [ leaf
    | solve [auto 1 with resolving nocore]
    | match goal with
      | |- eased _ (fun _ => match ?s with _ => _ end) => destruct s; go
      | |- eased _ (fun _ => bind ?m _) => destruct m; cbn [bind]; go
      end
    | lazymatch goal with
      | |- eased _ (fun a => @bind _ pstate _ _ _) => eapply (eased_bind setr); [go | intros []; go]
      | |- eased _ (fun a => @bind _ (pstate * _) _ _ _) => eapply (eased_bind put_l); [go | intros [[] ?]; go]
      | |- eased _ (fun a => @bind _ (_ * pstate) _ _ _) => eapply (eased_bind put_r); [go | intros [? []]; go]
      end
    | idtac ].
  Ltac blind_tac f := unfold blindA; intros; unfold f; go.

  Lemma b_inline pass t : blind (add_to_last_inline pass t).
  Proof. blind_tac add_to_last_inline. Qed.
  Hint Extern 0 (eased _ (fun _ => add_to_last_inline _ _ _)) => apply b_inline : resolving.
  Hint Extern 0 (eased _ (fun _ => add_text_to_last_inline _ _)) => apply b_inline : resolving.
  Hint Extern 0 (eased _ (fun _ => pass_text_to_last_inline _ _)) => apply b_inline : resolving.
  Lemma b_dangling : blind handle_dangling_spans.
  Proof. blind_tac handle_dangling_spans. Qed.
  Hint Extern 0 (eased _ (fun _ => handle_dangling_spans _)) => apply b_dangling : resolving.
  Lemma b_push b : blind (push_block_to_stack b).
  Proof. blind_tac push_block_to_stack. Qed.
  Hint Extern 0 (eased _ (fun _ => push_block_to_stack _ _)) => apply b_push : resolving.
  Lemma b_paragraph : blind new_paragraph.
  Proof. blind_tac new_paragraph. Qed.
  Hint Extern 0 (eased _ (fun _ => new_paragraph _)) => apply b_paragraph : resolving.
  Lemma b_inlines : blind add_inlines_to_block_stack.
  Proof. blind_tac add_inlines_to_block_stack. Qed.
  Hint Extern 0 (eased _ (fun _ => add_inlines_to_block_stack _)) => apply b_inlines : resolving.
  Lemma b_meta t : blind (p_add_metadata_from_token w t).
  Proof. blind_tac p_add_metadata_from_token. Qed.
  Hint Extern 0 (eased _ (fun _ => p_add_metadata_from_token _ _ _)) => apply b_meta : resolving.
  Lemma b_item : blind add_last_list_item_to_list.
  Proof. blind_tac add_last_list_item_to_list. Qed.
  Hint Extern 0 (eased _ (fun _ => add_last_list_item_to_list _)) => apply b_item : resolving.
  Lemma b_graph b : blind (p_asg_push b).
  Proof. blind_tac p_asg_push. Qed.
  Hint Extern 0 (eased _ (fun _ => p_asg_push _ _)) => apply b_graph : resolving.
  Lemma b_take b : blindA put_r (take_metadata b).
  Proof. blind_tac take_metadata. Qed.
  Hint Extern 0 (eased _ (fun _ => take_metadata _ _)) => apply b_take : resolving.
  Lemma b_to b : blind (add_to_block_stack_or_graph b).
  Proof. blind_tac add_to_block_stack_or_graph. Qed.
  Hint Extern 0 (eased _ (fun _ => add_to_block_stack_or_graph _ _)) => apply b_to : resolving.
  Lemma b_last : blind add_last_to_block_stack_or_graph.
  Proof. blind_tac add_last_to_block_stack_or_graph. Qed.
  Hint Extern 0 (eased _ (fun _ => add_last_to_block_stack_or_graph _)) => apply b_last : resolving.
  Lemma b_last_block : blind add_last_block_to_graph.
  Proof. blind_tac add_last_block_to_graph. Qed.
  Hint Extern 0 (eased _ (fun _ => add_last_block_to_graph _)) => apply b_last_block : resolving.
  Lemma b_flush fuel n : blind (flush_blocks fuel n).
  Proof.
    induction fuel as [|fuel IH]; unfold blindA in *; intros; cbn [flush_blocks]; go.
  Qed.
  Hint Extern 0 (eased _ (fun _ => flush_blocks _ _ _)) => apply b_flush : resolving.
  Lemma b_flush_to n : blind (flush_to n).
  Proof. blind_tac flush_to. Qed.
  Hint Extern 0 (eased _ (fun _ => flush_to _ _)) => apply b_flush_to : resolving.
  Lemma b_header : blind (check_and_move_header w).
  Proof.
    unfold blindA. intros. unfold check_and_move_header. nf. eapply (eased_bind setr); [go | intros []; nf].
    destruct p_header as [hd|]; [|go]. destruct (hd_title hd) eqn:E; go.
  Qed.
  Hint Extern 0 (eased _ (fun _ => check_and_move_header _ _)) => apply b_header : resolving.
  Lemma b_offset v : blind (parse_level_offset w v).
  Proof. blind_tac parse_level_offset. Qed.
  Hint Extern 0 (eased _ (fun _ => parse_level_offset _ _ _)) => apply b_offset : resolving.
  Lemma b_attribute t : blind (parse_attribute w t).
  Proof. blind_tac parse_attribute. Qed.
  Hint Extern 0 (eased _ (fun _ => parse_attribute _ _ _)) => apply b_attribute : resolving.
  Lemma b_battrs t : blind (parse_block_attributes w t).
  Proof. blind_tac parse_block_attributes. Qed.
  Hint Extern 0 (eased _ (fun _ => parse_block_attributes _ _ _)) => apply b_battrs : resolving.
  Lemma b_iattrs t : blind (parse_inline_element_attributes t).
  Proof. blind_tac parse_inline_element_attributes. Qed.
  Hint Extern 0 (eased _ (fun _ => parse_inline_element_attributes _ _)) => apply b_iattrs : resolving.
  Lemma b_newline t : blind (parse_new_line_char w t).
  Proof. unfold blindA. intros. unfold parse_new_line_char. destruct ti; go. Qed.
  Hint Extern 0 (eased _ (fun _ => parse_new_line_char _ _ _)) => apply b_newline : resolving.
  Lemma b_break v t : blind (parse_break v t).
  Proof. blind_tac parse_break. Qed.
  Hint Extern 0 (eased _ (fun _ => parse_break _ _ _)) => apply b_break : resolving.
  Lemma b_term t : blind (parse_description_list_term t).
  Proof. blind_tac parse_description_list_term. Qed.
  Hint Extern 0 (eased _ (fun _ => parse_description_list_term _ _)) => apply b_term : resolving.
  Lemma b_ordered t : blind (parse_ordered_list_item t).
  Proof. blind_tac parse_ordered_list_item. Qed.
  Hint Extern 0 (eased _ (fun _ => parse_ordered_list_item _ _)) => apply b_ordered : resolving.
  Lemma b_unordered t : blind (parse_unordered_list_item t).
  Proof. blind_tac parse_unordered_list_item. Qed.
  Hint Extern 0 (eased _ (fun _ => parse_unordered_list_item _ _)) => apply b_unordered : resolving.
  Lemma b_section t : blind (parse_section_headings w t).
  Proof. unfold blindA. intros. unfold parse_section_headings, get_heading_level. go. Qed.
  Hint Extern 0 (eased _ (fun _ => parse_section_headings _ _ _)) => apply b_section : resolving.
  Lemma b_title t : blind (parse_title w t).
  Proof. blind_tac parse_title. Qed.
  Hint Extern 0 (eased _ (fun _ => parse_title _ _ _)) => apply b_title : resolving.
  Lemma b_admonition t : blind (parse_admonition_para_syntax t).
  Proof. blind_tac parse_admonition_para_syntax. Qed.
  Hint Extern 0 (eased _ (fun _ => parse_admonition_para_syntax _ _)) => apply b_admonition : resolving.
  Lemma b_continuation : blind parse_block_continuation.
  Proof. blind_tac parse_block_continuation. Qed.
  Hint Extern 0 (eased _ (fun _ => parse_block_continuation _)) => apply b_continuation : resolving.
  Lemma b_span_new i : blind (parse_inline_span_new i).
  Proof. blind_tac parse_inline_span_new. Qed.
  Hint Extern 0 (eased _ (fun _ => parse_inline_span_new _ _)) => apply b_span_new : resolving.
  Lemma b_span i : blind (parse_inline_span i).
  Proof. blind_tac parse_inline_span. Qed.
  Hint Extern 0 (eased _ (fun _ => parse_inline_span _ _)) => apply b_span : resolving.
  Lemma b_image t : blind (parse_block_image w t).
  Proof.
    unfold blindA. intros. unfold parse_block_image. destruct (target_and_attrs_from_token w t) as [[target m]| | | |]; cbn [bind]; try leaf.
    unfold check_target, resolve_target. nf. destruct (w_canon w (resolve_path o fi target)) eqn:C.
    - apply (eased_ext _ (fun re => let (m0, p) := match me with Some pm => (Some (macro_meta m pm), mkP o l h at_ bs_ is_ fi ti None ol ot off il isp ic fn pn cp da re a) | None => (m, mkP o l h at_ bs_ is_ fi ti me ol ot off il isp ic fn pn cp da re a) end in
        let (cap, p0) := match p_title p with Some c => (c, set_title None p) | None => ([], p) end in add_to_block_stack_or_graph (Blk (HMacro target cap) m0 [] (token_locations t)) p0)).
      + intros []; reflexivity.
      + destruct me, ti; go.
    - match goal with |- eased _ ?f => assert (eased setr (fun re => let (m0, p) := match me with Some pm => (Some (macro_meta m pm), mkP o l h at_ bs_ is_ fi ti None ol ot off il isp ic fn pn cp da re a) | None => (m, mkP o l h at_ bs_ is_ fi ti me ol ot off il isp ic fn pn cp da re a) end in
        let (cap, p0) := match p_title p with Some c => (c, set_title None p) | None => ([], p) end in add_to_block_stack_or_graph (Blk (HMacro target cap) m0 [] (token_locations t)) p0)) as (out & E & _) by (destruct me, ti; go) end.
      exists out. split; [exact E|]. right. exists (tline t), target. split; [reflexivity|]. eexists. exact C.
  Qed.
  Hint Extern 0 (eased _ (fun _ => parse_block_image _ _ _)) => apply b_image : resolving.
  Lemma b_inline_image t : blind (parse_inline_image_macro w t).
  Proof. blind_tac parse_inline_image_macro. Qed.
  Hint Extern 0 (eased _ (fun _ => parse_inline_image_macro _ _ _)) => apply b_inline_image : resolving.
  Lemma b_footnote t : blind (parse_footnote_macro t).
  Proof. blind_tac parse_footnote_macro. Qed.
  Hint Extern 0 (eased _ (fun _ => parse_footnote_macro _ _)) => apply b_footnote : resolving.
  Lemma b_close t : blind (parse_inline_macro_close t).
  Proof. blind_tac parse_inline_macro_close. Qed.
  Hint Extern 0 (eased _ (fun _ => parse_inline_macro_close _ _)) => apply b_close : resolving.
  Lemma b_flush_dangling i : blindA put_l (flush_dangling i).
  Proof. blind_tac flush_dangling. Qed.
  Hint Extern 0 (eased _ (fun _ => flush_dangling _ _)) => apply b_flush_dangling : resolving.
  Lemma b_text t : blind (parse_text t).
  Proof. blind_tac parse_text. Qed.
  Hint Extern 0 (eased _ (fun _ => parse_text _ _)) => apply b_text : resolving.
  Lemma b_pass t : blind (pass_text_through t).
  Proof. blind_tac pass_text_through. Qed.
  Hint Extern 0 (eased _ (fun _ => pass_text_through _ _)) => apply b_pass : resolving.
  Lemma b_charref t : blind (parse_charref t).
  Proof. blind_tac parse_charref. Qed.
  Hint Extern 0 (eased _ (fun _ => parse_charref _ _)) => apply b_charref : resolving.
  Lemma b_attr_ref t : blind (parse_attribute_reference t).
  Proof. blind_tac parse_attribute_reference. Qed.
  Hint Extern 0 (eased _ (fun _ => parse_attribute_reference _ _)) => apply b_attr_ref : resolving.
  Lemma b_xref t : blind (parse_cross_reference t).
  Proof. blind_tac parse_cross_reference. Qed.
  Hint Extern 0 (eased _ (fun _ => parse_cross_reference _ _)) => apply b_xref : resolving.
  Lemma b_callout t : blind (parse_code_callout t).
  Proof. blind_tac parse_code_callout. Qed.
  Hint Extern 0 (eased _ (fun _ => parse_code_callout _ _)) => apply b_callout : resolving.
  Lemma b_leaf t : blind (parse_delimited_leaf_block t).
  Proof. blind_tac parse_delimited_leaf_block. Qed.
  Hint Extern 0 (eased _ (fun _ => parse_delimited_leaf_block _ _)) => apply b_leaf : resolving.
  Lemma b_parent t : blind (parse_delimited_parent_block t).
  Proof. unfold blindA. intros. unfold parse_delimited_parent_block. destruct ti; go. Qed.
  Hint Extern 0 (eased _ (fun _ => parse_delimited_parent_block _ _)) => apply b_parent : resolving.
  Lemma b_quote t : blind (parse_quote_verse t).
  Proof. blind_tac parse_quote_verse. Qed.
  Hint Extern 0 (eased _ (fun _ => parse_quote_verse _ _)) => apply b_quote : resolving.
  Lemma b_comment t : blind (parse_comment_block t).
  Proof. blind_tac parse_comment_block. Qed.
  Hint Extern 0 (eased _ (fun _ => parse_comment_block _ _)) => apply b_comment : resolving.
  Lemma b_dispatch t : blind (dispatch w t).
  Proof. unfold blindA. intros. unfold dispatch, parse_block_label. go. Qed.
  Hint Extern 0 (eased _ (fun _ => dispatch _ _ _)) => apply b_dispatch : resolving.

  Section Tokens.
    Variable rec : token -> pstate -> result pstate.
    Hypothesis b_rec : forall t, blind (rec t).
    Hint Extern 0 (eased _ (fun _ => rec _ _)) => apply b_rec : resolving.
    Lemma b_include_loop s st ts : blind (include_loop rec s st ts).
    Proof.
      revert st. induction ts as [|t ts IH]; intros st; unfold blindA in *; intros; cbn [include_loop]; [go|].
      destruct (include_step s st t) as [[k st']| | | |]; cbn [bind]; try leaf. destruct k; [|apply IH].
      eapply (eased_bind setr); [go | intros []; nf; apply IH].
    Qed.
    Hint Extern 0 (eased _ (fun _ => include_loop _ _ _ _ _)) => apply b_include_loop : resolving.
    Lemma b_include t : blind (parse_include w rec t).
    Proof. unfold blindA. intros. unfold parse_include, resolve_target. go. Qed.
    Lemma b_cell_loop line col ts : blind (cell_loop rec line col ts).
    Proof.
      induction ts as [|t ts IH]; unfold blindA in *; intros; cbn [cell_loop]; [go|].
      eapply (eased_bind setr); [go | intros []; nf; apply IH].
    Qed.
    Hint Extern 0 (eased _ (fun _ => cell_loop _ _ _ _ _)) => apply b_cell_loop : resolving.
    Lemma b_cell t : blind (parse_table_cell rec t).
    Proof. unfold blindA. intros. unfold parse_table_cell. go. Qed.
  End Tokens.
  Hint Extern 0 (eased _ (fun _ => parse_include _ _ _ _)) => apply b_include : resolving.
  Hint Extern 0 (eased _ (fun _ => parse_table_cell _ _ _)) => apply b_cell : resolving.
  Lemma b_token fuel t : blind (token_into w fuel t).
  Proof.
    revert t. induction fuel as [|fuel IH]; intros t; unfold blindA; intros; cbn [token_into].
    - eapply (eased_bind setr); [go | intros []; unfold pre_dispatch; go].
    - eapply (eased_bind setr); [go | intros []; unfold pre_dispatch]. nf.
      destruct (match p_open_type with None => _ | Some _ => _ end); [go|go|].
      destruct (ttype t); first [apply b_dispatch | apply b_include; exact IH | apply b_cell; exact IH].
  Qed.
  Hint Extern 0 (eased _ (fun _ => token_into _ _ _ _)) => apply b_token : resolving.
  Lemma b_loop fuel ts : blind (parse_loop w fuel ts).
  Proof.
    induction ts as [|t ts IH]; unfold blindA in *; intros; cbn [parse_loop]; [go|].
    eapply (eased_bind setr); [go | intros []; nf; apply IH].
  Qed.
  Hint Extern 0 (eased _ (fun _ => parse_loop _ _ _ _)) => apply b_loop : resolving.
  Lemma eased_parse fuel origin src : missing w (parse w fuel origin true src) \/ parse w fuel origin true src = parse w fuel origin false src.
  Proof.
    unfold parse, parse_with. destruct (scan_stream src []) as [ts e]. cbn [fst snd].
    assert (eased setr (fun re => let* p := parse_loop w fuel ts (set_asg new_asg (new_parser origin re)) in let* _ := e in let* p := add_inlines_to_block_stack p in flush_to 0 p)) as (out & F & T).
    { unfold new_parser. go. }
    assert (forall re, (let* (a, _) := (let* p := parse_loop w fuel ts (set_asg new_asg (new_parser origin re)) in let* _ := e in let* p := add_inlines_to_block_stack p in let* p := flush_to 0 p in Ok (asg_consolidate (p_asg p), p)) in Ok a)
      = let* p := (let* p := parse_loop w fuel ts (set_asg new_asg (new_parser origin re)) in let* _ := e in let* p := add_inlines_to_block_stack p in flush_to 0 p) in Ok (asg_consolidate (p_asg p))) as Q.
    { clear. intros re. destruct (parse_loop w fuel ts (set_asg new_asg (new_parser origin re))) as [p| | | |]; cbn [bind]; try reflexivity. destruct e; cbn [bind]; try reflexivity.
      destruct (add_inlines_to_block_stack p) as [p0| | | |]; cbn [bind]; try reflexivity. destruct (flush_to 0 p0); reflexivity. }
    rewrite !Q, F. destruct T as [T|(l & t & T & M)]; rewrite T; [right | left; exists l, t; auto].
    now destruct out.
  Qed.
End Resolve.

Lemma found_parse w fuel origin src : (forall p, w_canon w p <> None) -> parse w fuel origin true src = parse w fuel origin false src.
Proof. intros H. destruct (eased_parse w fuel origin src) as [(l & t & _ & d & K)|E]; [now apply H in K | exact E]. Qed.
Lemma eased_ok w fuel origin src g : parse w fuel origin true src = Ok g -> parse w fuel origin false src = Ok g.
Proof. intros H. destruct (eased_parse w fuel origin src) as [(l & t & K & _)|E]; congruence. Qed.
Lemma eased_run w fuel e c : c_backend c <> BDocx ->
  run w fuel e c = run w fuel e (unresolved c) \/ (fst (run w fuel e c) = [] /\ missing w (snd (run w fuel e c))).
Proof.
  intros B. unfold run. cbn [unresolved c_file c_unresolved c_count c_backend negb].
  change (read_input w e (unresolved c)) with (read_input w e c). change (read_output (unresolved c)) with (read_output c).
  destruct (read_input w e c) as [src| | | |]; cbn [lift]; auto.
  destruct (c_unresolved c) eqn:U; cbn [negb].
  - left. destruct (parse w fuel (origin_directory e (c_file c)) false src); cbn [lift]; reflexivity.
  - destruct (eased_parse w fuel (origin_directory e (c_file c)) src) as [(l & t & K & d & C)|E].
    + right. rewrite K. cbn [lift fst snd]. split; [reflexivity|]. exists l, t. eauto.
    + left. rewrite E. destruct (parse w fuel (origin_directory e (c_file c)) false src); cbn [lift]; try reflexivity. destruct (c_backend c); [reflexivity|reflexivity|congruence].
Qed.
