(** * Only newlines look at the token before *)
From Verif Require Import Base World Location Token Scanner Meta Inline Block Asg Parser SpecScan SpecLex SpecDoc SpecArticle SpecScript.
Local Open Scope char_scope.
Local Open Scope nat_scope.


Definition rmap {E A B} (f : A -> B) (r : res E A) : res E B :=
  match r with Ok a => Ok (f a) | Err e => Err e | Panic => Panic | Hang => Hang | Exit => Exit end.
Section Blind.
  Variable x : token_type.
  Notation "'L' p" := (set_last x p) (at level 10, p at level 9).
  Lemma l_origin p : p_origin (L p) = p_origin p. Proof. reflexivity. Qed.
  Lemma l_header p : p_header (L p) = p_header p. Proof. reflexivity. Qed.
  Lemma l_attrs p : p_attrs (L p) = p_attrs p. Proof. reflexivity. Qed.
  Lemma l_bstack p : p_bstack (L p) = p_bstack p. Proof. reflexivity. Qed.
  Lemma l_istack p : p_istack (L p) = p_istack p. Proof. reflexivity. Qed.
  Lemma l_files p : p_files (L p) = p_files p. Proof. reflexivity. Qed.
  Lemma l_title p : p_title (L p) = p_title p. Proof. reflexivity. Qed.
  Lemma l_meta p : p_meta (L p) = p_meta p. Proof. reflexivity. Qed.
  Lemma l_open_lines p : p_open_lines (L p) = p_open_lines p. Proof. reflexivity. Qed.
  Lemma l_open_type p : p_open_type (L p) = p_open_type p. Proof. reflexivity. Qed.
  Lemma l_offset p : p_offset (L p) = p_offset p. Proof. reflexivity. Qed.
  Lemma l_in_line p : p_in_line (L p) = p_in_line p. Proof. reflexivity. Qed.
  Lemma l_in_span p : p_in_span (L p) = p_in_span p. Proof. reflexivity. Qed.
  Lemma l_in_cont p : p_in_cont (L p) = p_in_cont p. Proof. reflexivity. Qed.
  Lemma l_force_new p : p_force_new (L p) = p_force_new p. Proof. reflexivity. Qed.
  Lemma l_preserve_nl p : p_preserve_nl (L p) = p_preserve_nl p. Proof. reflexivity. Qed.
  Lemma l_close_parent p : p_close_parent (L p) = p_close_parent p. Proof. reflexivity. Qed.
  Lemma l_dangling p : p_dangling (L p) = p_dangling p. Proof. reflexivity. Qed.
  Lemma l_resolve p : p_resolve (L p) = p_resolve p. Proof. reflexivity. Qed.
  Lemma l_asg p : p_asg (L p) = p_asg p. Proof. reflexivity. Qed.
  Lemma s_header v p : set_header v (L p) = L (set_header v p). Proof. reflexivity. Qed.
  Lemma s_attrs v p : set_attrs v (L p) = L (set_attrs v p). Proof. reflexivity. Qed.
  Lemma s_bstack v p : set_bstack v (L p) = L (set_bstack v p). Proof. reflexivity. Qed.
  Lemma s_istack v p : set_istack v (L p) = L (set_istack v p). Proof. reflexivity. Qed.
  Lemma s_files v p : set_files v (L p) = L (set_files v p). Proof. reflexivity. Qed.
  Lemma s_title v p : set_title v (L p) = L (set_title v p). Proof. reflexivity. Qed.
  Lemma s_meta v p : set_meta v (L p) = L (set_meta v p). Proof. reflexivity. Qed.
  Lemma s_open_lines v p : set_open_lines v (L p) = L (set_open_lines v p). Proof. reflexivity. Qed.
  Lemma s_open_type v p : set_open_type v (L p) = L (set_open_type v p). Proof. reflexivity. Qed.
  Lemma s_offset v p : set_offset v (L p) = L (set_offset v p). Proof. reflexivity. Qed.
  Lemma s_in_line v p : set_in_line v (L p) = L (set_in_line v p). Proof. reflexivity. Qed.
  Lemma s_in_span v p : set_in_span v (L p) = L (set_in_span v p). Proof. reflexivity. Qed.
  Lemma s_in_cont v p : set_in_cont v (L p) = L (set_in_cont v p). Proof. reflexivity. Qed.
  Lemma s_force_new v p : set_force_new v (L p) = L (set_force_new v p). Proof. reflexivity. Qed.
  Lemma s_preserve_nl v p : set_preserve_nl v (L p) = L (set_preserve_nl v p). Proof. reflexivity. Qed.
  Lemma s_close_parent v p : set_close_parent v (L p) = L (set_close_parent v p). Proof. reflexivity. Qed.
  Lemma s_dangling v p : set_dangling v (L p) = L (set_dangling v p). Proof. reflexivity. Qed.
  Lemma s_asg v p : set_asg v (L p) = L (set_asg v p). Proof. reflexivity. Qed.
  Hint Rewrite l_origin l_header l_attrs l_bstack l_istack l_files l_title l_meta l_open_lines l_open_type l_offset l_in_line l_in_span l_in_cont
    l_force_new l_preserve_nl l_close_parent l_dangling l_resolve l_asg
    s_header s_attrs s_bstack s_istack s_files s_title s_meta s_open_lines s_open_type s_offset s_in_line s_in_span s_in_cont
    s_force_new s_preserve_nl s_close_parent s_dangling s_asg : blind.
  Local Arguments set_last : simpl never.
  Ltac bl := repeat (repeat match goal with a : (_ * _)%type |- _ => destruct a end; cbn [bind rmap fst snd]; autorewrite with blind; try reflexivity;
                     match goal with
                     | |- context [match ?e with _ => _ end] => lazymatch e with context [bind _ _] => fail | context [match _ with _ => _ end] => fail | _ => destruct e end
                     | |- context [bind (rmap _ ?e) _] => lazymatch e with context [bind _ _] => fail | context [match _ with _ => _ end] => fail | _ => destruct e end
                     | |- context [bind ?e _] => lazymatch e with rmap _ _ => fail | context [bind _ _] => fail | context [match _ with _ => _ end] => fail | _ => destruct e end
                     end); try reflexivity.
  Notation blind f := (forall p, f (L p) = rmap (set_last x) (f p)).

  Lemma b_add_to_last_inline pass t : blind (add_to_last_inline pass t).
  Proof. intros p. unfold add_to_last_inline. bl. Qed.
  Hint Rewrite b_add_to_last_inline : blind.
  Lemma b_add_text_to_last_inline t : blind (add_text_to_last_inline t).
  Proof. intros p. apply b_add_to_last_inline. Qed.
  Lemma b_pass_text_to_last_inline t : blind (pass_text_to_last_inline t).
  Proof. intros p. apply b_add_to_last_inline. Qed.
  Hint Rewrite b_add_text_to_last_inline b_pass_text_to_last_inline : blind.
  Lemma b_handle_dangling_spans : blind handle_dangling_spans.
  Proof. intros p. unfold handle_dangling_spans. bl. Qed.
  Lemma b_push_block_to_stack b : blind (push_block_to_stack b).
  Proof. intros p. unfold push_block_to_stack. bl. Qed.
  Hint Rewrite b_handle_dangling_spans b_push_block_to_stack : blind.
  Lemma b_new_paragraph : blind new_paragraph.
  Proof. intros p. unfold new_paragraph. bl. Qed.
  Hint Rewrite b_new_paragraph : blind.
  Lemma b_add_inlines_to_block_stack : blind add_inlines_to_block_stack.
  Proof. intros p. unfold add_inlines_to_block_stack. bl. Qed.
  Lemma b_p_add_metadata_from_token w t : blind (p_add_metadata_from_token w t).
  Proof. intros p. unfold p_add_metadata_from_token. bl. Qed.
  Lemma b_p_asg_push b : blind (p_asg_push b).
  Proof. intros p. unfold p_asg_push. bl. Qed.
  Lemma b_take_metadata b p : take_metadata b (L p) = rmap (fun q => (fst q, L (snd q))) (take_metadata b p).
  Proof. unfold take_metadata. bl. Qed.
  Hint Rewrite b_add_inlines_to_block_stack b_p_add_metadata_from_token b_p_asg_push b_take_metadata : blind.
  Lemma b_add_last_list_item_to_list : blind add_last_list_item_to_list.
  Proof. intros p. unfold add_last_list_item_to_list. bl. Qed.
  Lemma b_add_to_block_stack_or_graph b : blind (add_to_block_stack_or_graph b).
  Proof. intros p. unfold add_to_block_stack_or_graph. bl. Qed.
  Lemma b_add_last_to_block_stack_or_graph : blind add_last_to_block_stack_or_graph.
  Proof. intros p. unfold add_last_to_block_stack_or_graph. bl. Qed.
  Hint Rewrite b_add_last_list_item_to_list b_add_to_block_stack_or_graph b_add_last_to_block_stack_or_graph : blind.
  Lemma b_add_last_block_to_graph : blind add_last_block_to_graph.
  Proof. intros p. unfold add_last_block_to_graph. bl. Qed.
  Hint Rewrite b_add_last_block_to_graph : blind.
  Lemma b_parse_level_offset w v : blind (parse_level_offset w v).
  Proof. intros p. unfold parse_level_offset. bl. Qed.
  Lemma b_check_and_move_header w : blind (check_and_move_header w).
  Proof. intros p. unfold check_and_move_header. bl. Qed.
  Hint Rewrite b_parse_level_offset b_check_and_move_header : blind.
  Lemma b_parse_attribute w t : blind (parse_attribute w t).
  Proof. intros p. unfold parse_attribute. bl. Qed.
  Lemma b_parse_block_attributes w t : blind (parse_block_attributes w t).
  Proof. intros p. unfold parse_block_attributes. bl. Qed.
  Lemma b_parse_inline_element_attributes t : blind (parse_inline_element_attributes t).
  Proof. intros p. unfold parse_inline_element_attributes. bl. Qed.
  Lemma b_parse_break v t : blind (parse_break v t).
  Proof. intros p. unfold parse_break. bl. Qed.
  Lemma b_parse_description_list_term t : blind (parse_description_list_term t).
  Proof. intros p. unfold parse_description_list_term. bl. Qed.
  Lemma b_parse_ordered_list_item t : blind (parse_ordered_list_item t).
  Proof. intros p. unfold parse_ordered_list_item. bl. Qed.
  Lemma b_parse_unordered_list_item t : blind (parse_unordered_list_item t).
  Proof. intros p. unfold parse_unordered_list_item. bl. Qed.
  Lemma b_get_heading_level w t p : get_heading_level w t (L p) = get_heading_level w t p.
  Proof. unfold get_heading_level. bl. Qed.
  Hint Rewrite b_get_heading_level : blind.
  Lemma b_parse_section_headings w t : blind (parse_section_headings w t).
  Proof. intros p. unfold parse_section_headings. bl. Qed.
  Hint Rewrite b_parse_section_headings : blind.
  Lemma b_parse_title w t : blind (parse_title w t).
  Proof. intros p. unfold parse_title. bl. Qed.
  Lemma b_parse_admonition t : blind (parse_admonition_para_syntax t).
  Proof. intros p. unfold parse_admonition_para_syntax. bl. Qed.
  Lemma b_parse_block_continuation : blind parse_block_continuation.
  Proof. intros p. unfold parse_block_continuation. bl. Qed.
  Lemma b_parse_inline_span_new i : blind (parse_inline_span_new i).
  Proof. intros p. unfold parse_inline_span_new. bl. Qed.
  Hint Rewrite b_parse_inline_span_new : blind.
  Lemma b_parse_inline_span i : blind (parse_inline_span i).
  Proof. intros p. unfold parse_inline_span. bl. Qed.
  Lemma b_push_inline_back i p : push_inline_back i (L p) = L (push_inline_back i p).
  Proof. reflexivity. Qed.
  Lemma b_resolve_target w n t p : resolve_target w n t (L p) = resolve_target w n t p.
  Proof. reflexivity. Qed.
  Lemma b_check_target w n t p : check_target w n t (L p) = check_target w n t p.
  Proof. reflexivity. Qed.
  Hint Rewrite b_push_inline_back b_resolve_target b_check_target : blind.
  Lemma b_parse_block_image w t : blind (parse_block_image w t).
  Proof. intros p. unfold parse_block_image. bl. Qed.
  Lemma b_parse_inline_image_macro w t : blind (parse_inline_image_macro w t).
  Proof. intros p. unfold parse_inline_image_macro. bl. Qed.
  Lemma b_parse_footnote_macro t : blind (parse_footnote_macro t).
  Proof. intros p. unfold parse_footnote_macro. bl. Qed.
  Lemma b_parse_inline_macro_close t : blind (parse_inline_macro_close t).
  Proof. intros p. unfold parse_inline_macro_close. bl. Qed.
  Lemma b_flush_dangling i p : flush_dangling i (L p) = rmap (fun q => (L (fst q), snd q)) (flush_dangling i p).
  Proof. unfold flush_dangling. bl. Qed.
  Hint Rewrite b_flush_dangling : blind.
  Lemma b_parse_text t : blind (parse_text t).
  Proof. intros p. unfold parse_text. bl. Qed.
  Lemma b_pass_text_through t : blind (pass_text_through t).
  Proof. intros p. unfold pass_text_through. bl. Qed.
  Lemma b_parse_charref t : blind (parse_charref t).
  Proof. intros p. unfold parse_charref. bl. Qed.
  Hint Rewrite b_parse_text : blind.
  Lemma b_parse_attribute_reference t : blind (parse_attribute_reference t).
  Proof. intros p. unfold parse_attribute_reference. bl. Qed.
  Lemma b_parse_cross_reference t : blind (parse_cross_reference t).
  Proof. intros p. unfold parse_cross_reference. bl. Qed.
  Lemma b_parse_code_callout t : blind (parse_code_callout t).
  Proof. intros p. unfold parse_code_callout. bl. Qed.
  Lemma b_parse_delimited_leaf_block t : blind (parse_delimited_leaf_block t).
  Proof. intros p. unfold parse_delimited_leaf_block. bl. Qed.
  Lemma b_parse_delimited_parent_block t : blind (parse_delimited_parent_block t).
  Proof. intros p. unfold parse_delimited_parent_block. bl. Qed.
  Hint Rewrite b_parse_delimited_leaf_block b_parse_delimited_parent_block : blind.
  Lemma b_parse_quote_verse t : blind (parse_quote_verse t).
  Proof. intros p. unfold parse_quote_verse. bl. Qed.
  Lemma b_parse_comment_block t : blind (parse_comment_block t).
  Proof. intros p. unfold parse_comment_block. bl. Qed.
  Lemma b_parse_block_label p : parse_block_label (L p) = L (parse_block_label p).
  Proof. reflexivity. Qed.
  Hint Rewrite b_parse_attribute b_parse_block_attributes b_parse_inline_element_attributes b_parse_break b_parse_description_list_term b_parse_ordered_list_item
    b_parse_unordered_list_item b_parse_section_headings b_parse_title b_parse_admonition b_parse_block_continuation b_parse_inline_span b_parse_block_image
    b_parse_inline_image_macro b_parse_footnote_macro b_parse_inline_macro_close b_pass_text_through b_parse_charref b_parse_attribute_reference
    b_parse_cross_reference b_parse_code_callout b_parse_quote_verse b_parse_comment_block b_parse_block_label : blind.
  Lemma b_dispatch w t : ttype t <> TNewLineChar -> blind (dispatch w t).
  Proof. intros N p. unfold dispatch. destruct (ttype t); try congruence; bl. Qed.
  Lemma b_pre_dispatch t p : pre_dispatch t (L p) = pre_dispatch t p.
  Proof. reflexivity. Qed.
  Hint Rewrite b_pre_dispatch b_dispatch using assumption : blind.
  Lemma b_token_into w fuel t : ttype t <> TNewLineChar -> ttype t <> TInclude -> ttype t <> TTableCell -> blind (token_into w fuel t).
  Proof.
    intros N1 N2 N3 p. assert (blind (fun p => match pre_dispatch t p with
      | PreText => parse_text t p | PrePass => pass_text_through t p
      | PreGo => match ttype t with TInclude => match fuel with O => Hang | S f => parse_include w (token_into w f) t p end
        | TTableCell => match fuel with O => Hang | S f => parse_table_cell (token_into w f) t p end | _ => dispatch w t p end end)) as H.
    { intros q. cbv beta. rewrite b_pre_dispatch. destruct (pre_dispatch t q); [apply b_parse_text|apply b_pass_text_through|].
      pose proof (b_dispatch w t N1 q) as D. destruct (ttype t); congruence || exact D. }
    destruct fuel; cbn [token_into]; autorewrite with blind.
    all: destruct (p_header p); cbn [bind]; [destruct (can_be_in_document_header t); cbn [bind]|]; try apply H.
    all: destruct (check_and_move_header w p); cbn [bind rmap]; try reflexivity; apply H.
  Qed.
End Blind.
