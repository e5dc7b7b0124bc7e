(** * A tree of documents in another place
    The parser uses the directory it starts from only to look for files. *)
From Verif Require Import Base World Location Token Scanner Meta Inline Block Asg Parser Html Cli SpecScan SpecPlace SpecResolve UnreadProofs.
Local Open Scope char_scope.
Local Open Scope nat_scope.

Definition keep {A} (put : bytes -> A -> A) (b : bytes) (out : result A) : result A := let* x := out in Ok (put b x).
Definition moved {A} (put : bytes -> A -> A) (g : bytes -> result A) : Prop := exists out, forall o, g o = keep put o out.
Definition seto (b : bytes) (p : pstate) : pstate :=
  mkP b (p_last p) (p_header p) (p_attrs p) (p_bstack p) (p_istack p) (p_files p) (p_title p) (p_meta p) (p_open_lines p) (p_open_type p) (p_offset p) (p_in_line p) (p_in_span p) (p_in_cont p) (p_force_new p) (p_preserve_nl p) (p_close_parent p) (p_dangling p) (p_resolve p) (p_asg p).
Definition put_l {A} (b : bytes) (x : pstate * A) : pstate * A := (seto b (fst x), snd x).
Definition put_r {A} (b : bytes) (x : A * pstate) : A * pstate := (fst x, seto b (snd x)).
Definition blindA {A} (put : bytes -> A -> A) (f : pstate -> result A) : Prop :=
  forall l h at_ bs_ is_ fi ti me ol ot off il isp ic fn pn cp da re a,
    moved put (fun o => f (mkP o l h at_ bs_ is_ fi ti me ol ot off il isp ic fn pn cp da re a)).
Section Place.
  Variable w : world.
  Lemma moved_bind {A B} (putA : bytes -> A -> A) (putB : bytes -> B -> B) g (k : A -> result B) :
    moved putA g -> (forall x, moved putB (fun a => k (putA a x))) -> moved putB (fun a => bind (g a) k).
  Proof.
    intros (out & F) K. destruct out as [x|e| | |]; [destruct (K x) as (out & F2)|exists (Err e)|exists Panic|exists Hang|exists Exit];
      [exists out|..]; intros o; rewrite F; [apply F2|reflexivity..].
  Qed.
  Lemma moved_ret {A} (put : bytes -> A -> A) h : (forall a, h a = put a (h [])) -> moved put (fun a => Ok (h a)).
  Proof. intros H. exists (Ok (h [])). intros o. unfold keep. cbn [bind]. now rewrite <- H. Qed.
  Lemma moved_err {A} (put : bytes -> A -> A) e : moved put (fun _ => Err e).
  Proof. now exists (Err e). Qed.
  Lemma moved_panic {A} (put : bytes -> A -> A) : moved put (fun _ => Panic).
  Proof. now exists Panic. Qed.
  Lemma moved_hang {A} (put : bytes -> A -> A) : moved put (fun _ => Hang).
  Proof. now exists Hang. Qed.
  Lemma moved_exit {A} (put : bytes -> A -> A) : moved put (fun _ => Exit).
  Proof. now exists Exit. Qed.
  Notation blind := (blindA seto).

  Create HintDb moving.
  Ltac nf := cbv beta iota zeta delta [p_origin p_last p_header p_attrs p_bstack p_istack p_files p_title p_meta p_open_lines p_open_type p_offset p_in_line p_in_span p_in_cont p_force_new p_preserve_nl p_close_parent p_dangling p_resolve p_asg set_last set_header set_attrs set_bstack set_istack set_files set_title set_meta set_open_lines set_open_type set_offset set_in_line set_in_span set_in_cont set_force_new set_preserve_nl set_close_parent set_dangling set_asg seto put_l put_r fst snd push_inline_back].
  Ltac leaf :=
    lazymatch goal with
    | |- moved _ (fun _ => Ok _) => apply moved_ret; reflexivity
    | |- moved _ (fun _ => Err _) => apply moved_err
    | |- moved _ (fun _ => Panic) => apply moved_panic
    | |- moved _ (fun _ => Hang) => apply moved_hang
    | |- moved _ (fun _ => Exit) => apply moved_exit
    end.
  Ltac go :=
    nf;
    first
    [ leaf
    | solve [auto 1 with moving nocore]
    | match goal with
      | |- moved _ (fun _ => match ?s with _ => _ end) => destruct s; go
      | |- moved _ (fun _ => bind ?m _) => destruct m; cbn [bind]; go
      end
    | lazymatch goal with
      | |- moved _ (fun a => @bind _ pstate _ _ _) => eapply (moved_bind seto); [go | intros []; go]
      | |- moved _ (fun a => @bind _ (pstate * _) _ _ _) => eapply (moved_bind put_l); [go | intros [[] ?]; go]
      | |- moved _ (fun a => @bind _ (_ * pstate) _ _ _) => eapply (moved_bind put_r); [go | intros [? []]; go]
      end
    | idtac ].
  Ltac blind_tac f := unfold blindA; intros; unfold f; go.

  Lemma b_inline pass t : blind (add_to_last_inline pass t).
  Proof. blind_tac add_to_last_inline. Qed.
  Hint Extern 0 (moved _ (fun _ => add_to_last_inline _ _ _)) => apply b_inline : moving.
  Hint Extern 0 (moved _ (fun _ => add_text_to_last_inline _ _)) => apply b_inline : moving.
  Hint Extern 0 (moved _ (fun _ => pass_text_to_last_inline _ _)) => apply b_inline : moving.
  Lemma b_dangling : blind handle_dangling_spans.
  Proof. blind_tac handle_dangling_spans. Qed.
  Hint Extern 0 (moved _ (fun _ => handle_dangling_spans _)) => apply b_dangling : moving.
  Lemma b_push b : blind (push_block_to_stack b).
  Proof. blind_tac push_block_to_stack. Qed.
  Hint Extern 0 (moved _ (fun _ => push_block_to_stack _ _)) => apply b_push : moving.
  Lemma b_paragraph : blind new_paragraph.
  Proof. blind_tac new_paragraph. Qed.
  Hint Extern 0 (moved _ (fun _ => new_paragraph _)) => apply b_paragraph : moving.
  Lemma b_inlines : blind add_inlines_to_block_stack.
  Proof. blind_tac add_inlines_to_block_stack. Qed.
  Hint Extern 0 (moved _ (fun _ => add_inlines_to_block_stack _)) => apply b_inlines : moving.
  Lemma b_meta t : blind (p_add_metadata_from_token w t).
  Proof. blind_tac p_add_metadata_from_token. Qed.
  Hint Extern 0 (moved _ (fun _ => p_add_metadata_from_token _ _ _)) => apply b_meta : moving.
  Lemma b_item : blind add_last_list_item_to_list.
  Proof. blind_tac add_last_list_item_to_list. Qed.
  Hint Extern 0 (moved _ (fun _ => add_last_list_item_to_list _)) => apply b_item : moving.
  Lemma b_graph b : blind (p_asg_push b).
  Proof. blind_tac p_asg_push. Qed.
  Hint Extern 0 (moved _ (fun _ => p_asg_push _ _)) => apply b_graph : moving.
  Lemma b_take b : blindA put_r (take_metadata b).
  Proof. blind_tac take_metadata. Qed.
  Hint Extern 0 (moved _ (fun _ => take_metadata _ _)) => apply b_take : moving.
  Lemma b_to b : blind (add_to_block_stack_or_graph b).
  Proof. blind_tac add_to_block_stack_or_graph. Qed.
  Hint Extern 0 (moved _ (fun _ => add_to_block_stack_or_graph _ _)) => apply b_to : moving.
  Lemma b_last : blind add_last_to_block_stack_or_graph.
  Proof. blind_tac add_last_to_block_stack_or_graph. Qed.
  Hint Extern 0 (moved _ (fun _ => add_last_to_block_stack_or_graph _)) => apply b_last : moving.
  Lemma b_last_block : blind add_last_block_to_graph.
  Proof. blind_tac add_last_block_to_graph. Qed.
  Hint Extern 0 (moved _ (fun _ => add_last_block_to_graph _)) => apply b_last_block : moving.
  Lemma b_flush fuel n : blind (flush_blocks fuel n).
  Proof.
    induction fuel as [|fuel IH]; unfold blindA in *; intros; cbn [flush_blocks]; go.
  Qed.
  Hint Extern 0 (moved _ (fun _ => flush_blocks _ _ _)) => apply b_flush : moving.
  Lemma b_flush_to n : blind (flush_to n).
  Proof. blind_tac flush_to. Qed.
  Hint Extern 0 (moved _ (fun _ => flush_to _ _)) => apply b_flush_to : moving.
  Lemma b_header : blind (check_and_move_header w).
  Proof.
    unfold blindA. intros. unfold check_and_move_header. nf. eapply (moved_bind seto); [go | intros []; nf].
    destruct p_header as [hd|]; [|go]. destruct (hd_title hd) eqn:E; go.
  Qed.
  Hint Extern 0 (moved _ (fun _ => check_and_move_header _ _)) => apply b_header : moving.
  Lemma b_offset v : blind (parse_level_offset w v).
  Proof. blind_tac parse_level_offset. Qed.
  Hint Extern 0 (moved _ (fun _ => parse_level_offset _ _ _)) => apply b_offset : moving.
  Lemma b_attribute t : blind (parse_attribute w t).
  Proof. blind_tac parse_attribute. Qed.
  Hint Extern 0 (moved _ (fun _ => parse_attribute _ _ _)) => apply b_attribute : moving.
  Lemma b_battrs t : blind (parse_block_attributes w t).
  Proof. blind_tac parse_block_attributes. Qed.
  Hint Extern 0 (moved _ (fun _ => parse_block_attributes _ _ _)) => apply b_battrs : moving.
  Lemma b_iattrs t : blind (parse_inline_element_attributes t).
  Proof. blind_tac parse_inline_element_attributes. Qed.
  Hint Extern 0 (moved _ (fun _ => parse_inline_element_attributes _ _)) => apply b_iattrs : moving.
  Lemma b_newline t : blind (parse_new_line_char w t).
  Proof. unfold blindA. intros. unfold parse_new_line_char. destruct ti; go. Qed.
  Hint Extern 0 (moved _ (fun _ => parse_new_line_char _ _ _)) => apply b_newline : moving.
  Lemma b_break v t : blind (parse_break v t).
  Proof. blind_tac parse_break. Qed.
  Hint Extern 0 (moved _ (fun _ => parse_break _ _ _)) => apply b_break : moving.
  Lemma b_term t : blind (parse_description_list_term t).
  Proof. blind_tac parse_description_list_term. Qed.
  Hint Extern 0 (moved _ (fun _ => parse_description_list_term _ _)) => apply b_term : moving.
  Lemma b_ordered t : blind (parse_ordered_list_item t).
  Proof. blind_tac parse_ordered_list_item. Qed.
  Hint Extern 0 (moved _ (fun _ => parse_ordered_list_item _ _)) => apply b_ordered : moving.
  Lemma b_unordered t : blind (parse_unordered_list_item t).
  Proof. blind_tac parse_unordered_list_item. Qed.
  Hint Extern 0 (moved _ (fun _ => parse_unordered_list_item _ _)) => apply b_unordered : moving.
  Lemma b_section t : blind (parse_section_headings w t).
  Proof. unfold blindA. intros. unfold parse_section_headings, get_heading_level. go. Qed.
  Hint Extern 0 (moved _ (fun _ => parse_section_headings _ _ _)) => apply b_section : moving.
  Lemma b_title t : blind (parse_title w t).
  Proof. blind_tac parse_title. Qed.
  Hint Extern 0 (moved _ (fun _ => parse_title _ _ _)) => apply b_title : moving.
  Lemma b_admonition t : blind (parse_admonition_para_syntax t).
  Proof. blind_tac parse_admonition_para_syntax. Qed.
  Hint Extern 0 (moved _ (fun _ => parse_admonition_para_syntax _ _)) => apply b_admonition : moving.
  Lemma b_continuation : blind parse_block_continuation.
  Proof. blind_tac parse_block_continuation. Qed.
  Hint Extern 0 (moved _ (fun _ => parse_block_continuation _)) => apply b_continuation : moving.
  Lemma b_span_new i : blind (parse_inline_span_new i).
  Proof. blind_tac parse_inline_span_new. Qed.
  Hint Extern 0 (moved _ (fun _ => parse_inline_span_new _ _)) => apply b_span_new : moving.
  Lemma b_span i : blind (parse_inline_span i).
  Proof. blind_tac parse_inline_span. Qed.
  Hint Extern 0 (moved _ (fun _ => parse_inline_span _ _)) => apply b_span : moving.
  Lemma b_inline_image t : blind (parse_inline_image_macro w t).
  Proof. blind_tac parse_inline_image_macro. Qed.
  Hint Extern 0 (moved _ (fun _ => parse_inline_image_macro _ _ _)) => apply b_inline_image : moving.
  Lemma b_footnote t : blind (parse_footnote_macro t).
  Proof. blind_tac parse_footnote_macro. Qed.
  Hint Extern 0 (moved _ (fun _ => parse_footnote_macro _ _)) => apply b_footnote : moving.
  Lemma b_close t : blind (parse_inline_macro_close t).
  Proof. blind_tac parse_inline_macro_close. Qed.
  Hint Extern 0 (moved _ (fun _ => parse_inline_macro_close _ _)) => apply b_close : moving.
  Lemma b_flush_dangling i : blindA put_l (flush_dangling i).
  Proof. blind_tac flush_dangling. Qed.
  Hint Extern 0 (moved _ (fun _ => flush_dangling _ _)) => apply b_flush_dangling : moving.
  Lemma b_text t : blind (parse_text t).
  Proof. blind_tac parse_text. Qed.
  Hint Extern 0 (moved _ (fun _ => parse_text _ _)) => apply b_text : moving.
  Lemma b_pass t : blind (pass_text_through t).
  Proof. blind_tac pass_text_through. Qed.
  Hint Extern 0 (moved _ (fun _ => pass_text_through _ _)) => apply b_pass : moving.
  Lemma b_charref t : blind (parse_charref t).
  Proof. blind_tac parse_charref. Qed.
  Hint Extern 0 (moved _ (fun _ => parse_charref _ _)) => apply b_charref : moving.
  Lemma b_attr_ref t : blind (parse_attribute_reference t).
  Proof. blind_tac parse_attribute_reference. Qed.
  Hint Extern 0 (moved _ (fun _ => parse_attribute_reference _ _)) => apply b_attr_ref : moving.
  Lemma b_xref t : blind (parse_cross_reference t).
  Proof. blind_tac parse_cross_reference. Qed.
  Hint Extern 0 (moved _ (fun _ => parse_cross_reference _ _)) => apply b_xref : moving.
  Lemma b_callout t : blind (parse_code_callout t).
  Proof. blind_tac parse_code_callout. Qed.
  Hint Extern 0 (moved _ (fun _ => parse_code_callout _ _)) => apply b_callout : moving.
  Lemma b_leaf t : blind (parse_delimited_leaf_block t).
  Proof. blind_tac parse_delimited_leaf_block. Qed.
  Hint Extern 0 (moved _ (fun _ => parse_delimited_leaf_block _ _)) => apply b_leaf : moving.
  Lemma b_parent t : blind (parse_delimited_parent_block t).
  Proof. unfold blindA. intros. unfold parse_delimited_parent_block. destruct ti; go. Qed.
  Hint Extern 0 (moved _ (fun _ => parse_delimited_parent_block _ _)) => apply b_parent : moving.
  Lemma b_quote t : blind (parse_quote_verse t).
  Proof. blind_tac parse_quote_verse. Qed.
  Hint Extern 0 (moved _ (fun _ => parse_quote_verse _ _)) => apply b_quote : moving.
  Lemma b_comment t : blind (parse_comment_block t).
  Proof. blind_tac parse_comment_block. Qed.
  Hint Extern 0 (moved _ (fun _ => parse_comment_block _ _)) => apply b_comment : moving.
  Lemma b_dispatch t : ttype t <> TBlockImageMacro -> blind (dispatch w t).
  Proof. unfold blindA. intros N. intros. unfold dispatch, parse_block_label. destruct (ttype t); try congruence; go. Qed.
End Place.
