(** * What the parser does does not depend on the graph it has built so far
    The parser only adds to the graph: every step is a list of additions and a result that are
    the same whatever the graph holds. *)
From Verif Require Import Base World Location Token Scanner Meta Inline Block Asg Parser SpecScan SpecLex SpecJoin SpecGrow GraphLemmas JoinProofs.
Local Open Scope char_scope.
Local Open Scope nat_scope.

(** ** Additions *)
Inductive addition := APut (b : block) | AHead (h : header) (attrs : list (bytes * bytes)).
Definition adds (w : world) (x : addition) (a : asg) : result asg :=
  match x with APut b => asg_push_block a b | AHead h at_ => Ok (asg_add_header w a h at_) end.
Fixpoint replay (w : world) (l : list addition) (a : asg) : result asg :=
  match l with [] => Ok a | x :: r => let* a := adds w x a in replay w r a end.

Ltac nf0 := cbv beta iota zeta delta [p_origin p_last p_header p_attrs p_bstack p_istack p_files p_title p_meta p_open_lines p_open_type p_offset p_in_line p_in_span p_in_cont p_force_new p_preserve_nl p_close_parent p_dangling p_resolve p_asg set_last set_header set_attrs set_bstack set_istack set_files set_title set_meta set_open_lines set_open_type set_offset set_in_line set_in_span set_in_cont set_force_new set_preserve_nl set_close_parent set_dangling set_asg fst snd push_inline_back].
Section Blind.
  Variable w : world.
  Definition play {A} (put : asg -> A -> A) (l : list addition) (out : result A) (a : asg) : result A :=
    let* b := replay w l a in let* x := out in Ok (put b x).
  Definition logs {A} (put : asg -> A -> A) (g : asg -> result A) : Prop :=
    exists l out, forall a, g a = play put l out a.
  Definition put_l {A} (a : asg) (x : pstate * A) : pstate * A := (set_asg a (fst x), snd x).
  Definition put_r {A} (a : asg) (x : A * pstate) : A * pstate := (fst x, set_asg a (snd x)).

  Lemma replay_app l m a : replay w (l ++ m) a = let* b := replay w l a in replay w m b.
  Proof. revert a. induction l as [|x l IH]; intros a; [reflexivity|]. cbn [app replay]. destruct (adds w x a); cbn [bind]; auto. Qed.
  Lemma logs_bind {A B} (putA : asg -> A -> A) (putB : asg -> B -> B) g (k : A -> result B) :
    logs putA g -> (forall x, logs putB (fun a => k (putA a x))) -> logs putB (fun a => bind (g a) k).
  Proof.
    intros (l & out & H) K. destruct out as [x|e| | |].
    - destruct (K x) as (m & out & H2). exists (l ++ m), out. intros a. rewrite H. unfold play. rewrite replay_app.
      destruct (replay w l a) as [b| | | |]; cbn [bind]; try reflexivity. apply H2.
    - exists l, (Err e). intros a. rewrite H. unfold play. now destruct (replay w l a).
    - exists l, Panic. intros a. rewrite H. unfold play. now destruct (replay w l a).
    - exists l, Hang. intros a. rewrite H. unfold play. now destruct (replay w l a).
    - exists l, Exit. intros a. rewrite H. unfold play. now destruct (replay w l a).
  Qed.
  Lemma logs_ret {A} (put : asg -> A -> A) h : (forall a, h a = put a (h new_asg)) -> logs put (fun a => Ok (h a)).
  Proof. intros H. exists [], (Ok (h new_asg)). intros a. unfold play. cbn [replay bind]. now rewrite <- H. Qed.
  Lemma logs_err {A} (put : asg -> A -> A) e : logs put (fun _ => Err e).
  Proof. now exists [], (Err e). Qed.
  Lemma logs_panic {A} (put : asg -> A -> A) : logs put (fun _ => Panic).
  Proof. now exists [], Panic. Qed.
  Lemma logs_hang {A} (put : asg -> A -> A) : logs put (fun _ => Hang).
  Proof. now exists [], Hang. Qed.
  Lemma logs_exit {A} (put : asg -> A -> A) : logs put (fun _ => Exit).
  Proof. now exists [], Exit. Qed.

  Definition blindA {A} (put : asg -> A -> A) (f : pstate -> result A) : Prop :=
    forall o l h at_ bs_ is_ fi ti me ol ot off il isp ic fn pn cp da re,
      logs put (fun a => f (mkP o l h at_ bs_ is_ fi ti me ol ot off il isp ic fn pn cp da re a)).
  Notation blind := (blindA set_asg).

  Create HintDb blind.
  Ltac nf := cbv beta iota zeta delta [p_origin p_last p_header p_attrs p_bstack p_istack p_files p_title p_meta p_open_lines p_open_type p_offset p_in_line p_in_span p_in_cont p_force_new p_preserve_nl p_close_parent p_dangling p_resolve p_asg set_last set_header set_attrs set_bstack set_istack set_files set_title set_meta set_open_lines set_open_type set_offset set_in_line set_in_span set_in_cont set_force_new set_preserve_nl set_close_parent set_dangling set_asg put_l put_r fst snd push_inline_back].
  Ltac leaf :=
    lazymatch goal with
    | |- logs _ (fun _ => Ok _) => apply logs_ret; reflexivity
    | |- logs _ (fun _ => Err _) => apply logs_err
    | |- logs _ (fun _ => Panic) => apply logs_panic
    | |- logs _ (fun _ => Hang) => apply logs_hang
    | |- logs _ (fun _ => Exit) => apply logs_exit
    end.
  Ltac go :=
    nf;
    first
    [ leaf
    | solve [auto 1 with blind nocore]
    | match goal with
      | |- logs _ (fun _ => match ?s with _ => _ end) => destruct s; go
      | |- logs _ (fun _ => bind ?m _) => destruct m; cbn [bind]; go
      end
    | lazymatch goal with
      | |- logs _ (fun a => @bind _ pstate _ _ _) => eapply (logs_bind set_asg); [go | intros []; go]
      | |- logs _ (fun a => @bind _ (pstate * _) _ _ _) => eapply (logs_bind put_l); [go | intros [[] ?]; go]
      | |- logs _ (fun a => @bind _ (_ * pstate) _ _ _) => eapply (logs_bind put_r); [go | intros [? []]; go]
      end
    | idtac ].
  Ltac blind_tac f := unfold blindA; intros; unfold f; go.

  Lemma b_inline pass t : blind (add_to_last_inline pass t).
  Proof. blind_tac add_to_last_inline. Qed.
  Hint Extern 0 (logs _ (fun _ => add_to_last_inline _ _ _)) => apply b_inline : blind.
  Hint Extern 0 (logs _ (fun _ => add_text_to_last_inline _ _)) => apply b_inline : blind.
  Hint Extern 0 (logs _ (fun _ => pass_text_to_last_inline _ _)) => apply b_inline : blind.
  Lemma b_dangling : blind handle_dangling_spans.
  Proof. blind_tac handle_dangling_spans. Qed.
  Hint Extern 0 (logs _ (fun _ => handle_dangling_spans _)) => apply b_dangling : blind.
  Lemma b_push b : blind (push_block_to_stack b).
  Proof. blind_tac push_block_to_stack. Qed.
  Hint Extern 0 (logs _ (fun _ => push_block_to_stack _ _)) => apply b_push : blind.
  Lemma b_paragraph : blind new_paragraph.
  Proof. blind_tac new_paragraph. Qed.
  Hint Extern 0 (logs _ (fun _ => new_paragraph _)) => apply b_paragraph : blind.
  Lemma b_inlines : blind add_inlines_to_block_stack.
  Proof. blind_tac add_inlines_to_block_stack. Qed.
  Hint Extern 0 (logs _ (fun _ => add_inlines_to_block_stack _)) => apply b_inlines : blind.
  Lemma b_meta t : blind (p_add_metadata_from_token w t).
  Proof. blind_tac p_add_metadata_from_token. Qed.
  Hint Extern 0 (logs _ (fun _ => p_add_metadata_from_token _ _ _)) => apply b_meta : blind.
  Lemma b_item : blind add_last_list_item_to_list.
  Proof. blind_tac add_last_list_item_to_list. Qed.
  Hint Extern 0 (logs _ (fun _ => add_last_list_item_to_list _)) => apply b_item : blind.
  Lemma b_graph b : blind (p_asg_push b).
  Proof.
    unfold blindA. intros. unfold p_asg_push. nf.
    eexists [APut b], (Ok (mkP o l h at_ bs_ is_ fi ti me ol ot off il isp ic fn pn cp da re new_asg)). intros a. unfold play. cbn [replay adds].
    now destruct (asg_push_block a b).
  Qed.
  Hint Extern 0 (logs _ (fun _ => p_asg_push _ _)) => apply b_graph : blind.
  Lemma b_take b : blindA put_r (take_metadata b).
  Proof. blind_tac take_metadata. Qed.
  Hint Extern 0 (logs _ (fun _ => take_metadata _ _)) => apply b_take : blind.
  Lemma b_to b : blind (add_to_block_stack_or_graph b).
  Proof. blind_tac add_to_block_stack_or_graph. Qed.
  Hint Extern 0 (logs _ (fun _ => add_to_block_stack_or_graph _ _)) => apply b_to : blind.
  Lemma b_last : blind add_last_to_block_stack_or_graph.
  Proof. blind_tac add_last_to_block_stack_or_graph. Qed.
  Hint Extern 0 (logs _ (fun _ => add_last_to_block_stack_or_graph _)) => apply b_last : blind.
  Lemma b_last_block : blind add_last_block_to_graph.
  Proof. blind_tac add_last_block_to_graph. Qed.
  Hint Extern 0 (logs _ (fun _ => add_last_block_to_graph _)) => apply b_last_block : blind.
  Lemma b_flush fuel n : blind (flush_blocks fuel n).
  Proof.
    induction fuel as [|fuel IH]; unfold blindA in *; intros; cbn [flush_blocks]; go.
  Qed.
  Hint Extern 0 (logs _ (fun _ => flush_blocks _ _ _)) => apply b_flush : blind.
  Lemma b_flush_to n : blind (flush_to n).
  Proof. blind_tac flush_to. Qed.
  Hint Extern 0 (logs _ (fun _ => flush_to _ _)) => apply b_flush_to : blind.
  Lemma b_header : blind (check_and_move_header w).
  Proof.
    unfold blindA. intros. unfold check_and_move_header. nf. eapply (logs_bind set_asg); [go | intros []; nf].
    destruct p_header as [hd|]; [|go]. destruct (hd_title hd) eqn:E; [go|].
    eexists [AHead (header_consolidate hd) p_attrs], (Ok (mkP _ _ _ _ _ _ _ _ _ _ _ _ _ _ _ _ _ _ _ _ new_asg)). intros a.
    unfold play. cbn [replay adds bind]. nf. reflexivity.
  Qed.
  Hint Extern 0 (logs _ (fun _ => check_and_move_header _ _)) => apply b_header : blind.
  Lemma b_offset v : blind (parse_level_offset w v).
  Proof. blind_tac parse_level_offset. Qed.
  Hint Extern 0 (logs _ (fun _ => parse_level_offset _ _ _)) => apply b_offset : blind.
  Lemma b_attribute t : blind (parse_attribute w t).
  Proof. blind_tac parse_attribute. Qed.
  Hint Extern 0 (logs _ (fun _ => parse_attribute _ _ _)) => apply b_attribute : blind.
  Lemma b_battrs t : blind (parse_block_attributes w t).
  Proof. blind_tac parse_block_attributes. Qed.
  Hint Extern 0 (logs _ (fun _ => parse_block_attributes _ _ _)) => apply b_battrs : blind.
  Lemma b_iattrs t : blind (parse_inline_element_attributes t).
  Proof. blind_tac parse_inline_element_attributes. Qed.
  Hint Extern 0 (logs _ (fun _ => parse_inline_element_attributes _ _)) => apply b_iattrs : blind.
  Lemma b_newline t : blind (parse_new_line_char w t).
  Proof. unfold blindA. intros. unfold parse_new_line_char. destruct ti; go. Qed.
  Hint Extern 0 (logs _ (fun _ => parse_new_line_char _ _ _)) => apply b_newline : blind.
  Lemma b_break v t : blind (parse_break v t).
  Proof. blind_tac parse_break. Qed.
  Hint Extern 0 (logs _ (fun _ => parse_break _ _ _)) => apply b_break : blind.
  Lemma b_term t : blind (parse_description_list_term t).
  Proof. blind_tac parse_description_list_term. Qed.
  Hint Extern 0 (logs _ (fun _ => parse_description_list_term _ _)) => apply b_term : blind.
  Lemma b_ordered t : blind (parse_ordered_list_item t).
  Proof. blind_tac parse_ordered_list_item. Qed.
  Hint Extern 0 (logs _ (fun _ => parse_ordered_list_item _ _)) => apply b_ordered : blind.
  Lemma b_unordered t : blind (parse_unordered_list_item t).
  Proof. blind_tac parse_unordered_list_item. Qed.
  Hint Extern 0 (logs _ (fun _ => parse_unordered_list_item _ _)) => apply b_unordered : blind.
  Lemma level_same t o l h at_ bs_ is_ fi ti me ol ot off il isp ic fn pn cp da re a :
    get_heading_level w t (mkP o l h at_ bs_ is_ fi ti me ol ot off il isp ic fn pn cp da re a) = get_heading_level w t (mkP o l h at_ bs_ is_ fi ti me ol ot off il isp ic fn pn cp da re new_asg).
  Proof. reflexivity. Qed.
  Lemma b_section t : blind (parse_section_headings w t).
  Proof. unfold blindA. intros. unfold parse_section_headings, get_heading_level. go. Qed.
  Hint Extern 0 (logs _ (fun _ => parse_section_headings _ _ _)) => apply b_section : blind.
  Lemma b_title t : blind (parse_title w t).
  Proof. blind_tac parse_title. Qed.
  Hint Extern 0 (logs _ (fun _ => parse_title _ _ _)) => apply b_title : blind.
  Lemma b_admonition t : blind (parse_admonition_para_syntax t).
  Proof. blind_tac parse_admonition_para_syntax. Qed.
  Hint Extern 0 (logs _ (fun _ => parse_admonition_para_syntax _ _)) => apply b_admonition : blind.
  Lemma b_continuation : blind parse_block_continuation.
  Proof. blind_tac parse_block_continuation. Qed.
  Hint Extern 0 (logs _ (fun _ => parse_block_continuation _)) => apply b_continuation : blind.
  Lemma b_span_new i : blind (parse_inline_span_new i).
  Proof. blind_tac parse_inline_span_new. Qed.
  Hint Extern 0 (logs _ (fun _ => parse_inline_span_new _ _)) => apply b_span_new : blind.
  Lemma b_span i : blind (parse_inline_span i).
  Proof. blind_tac parse_inline_span. Qed.
  Hint Extern 0 (logs _ (fun _ => parse_inline_span _ _)) => apply b_span : blind.
  Lemma b_image t : blind (parse_block_image w t).
  Proof. unfold blindA. intros. unfold parse_block_image, check_target, resolve_target. destruct me, ti; go. Qed.
  Hint Extern 0 (logs _ (fun _ => parse_block_image _ _ _)) => apply b_image : blind.
  Lemma b_inline_image t : blind (parse_inline_image_macro w t).
  Proof. blind_tac parse_inline_image_macro. Qed.
  Hint Extern 0 (logs _ (fun _ => parse_inline_image_macro _ _ _)) => apply b_inline_image : blind.
  Lemma b_footnote t : blind (parse_footnote_macro t).
  Proof. blind_tac parse_footnote_macro. Qed.
  Hint Extern 0 (logs _ (fun _ => parse_footnote_macro _ _)) => apply b_footnote : blind.
  Lemma b_close t : blind (parse_inline_macro_close t).
  Proof. blind_tac parse_inline_macro_close. Qed.
  Hint Extern 0 (logs _ (fun _ => parse_inline_macro_close _ _)) => apply b_close : blind.
  Lemma b_flush_dangling i : blindA put_l (flush_dangling i).
  Proof. blind_tac flush_dangling. Qed.
  Hint Extern 0 (logs _ (fun _ => flush_dangling _ _)) => apply b_flush_dangling : blind.
  Lemma b_text t : blind (parse_text t).
  Proof. blind_tac parse_text. Qed.
  Hint Extern 0 (logs _ (fun _ => parse_text _ _)) => apply b_text : blind.
  Lemma b_pass t : blind (pass_text_through t).
  Proof. blind_tac pass_text_through. Qed.
  Hint Extern 0 (logs _ (fun _ => pass_text_through _ _)) => apply b_pass : blind.
  Lemma b_charref t : blind (parse_charref t).
  Proof. blind_tac parse_charref. Qed.
  Hint Extern 0 (logs _ (fun _ => parse_charref _ _)) => apply b_charref : blind.
  Lemma b_attr_ref t : blind (parse_attribute_reference t).
  Proof. blind_tac parse_attribute_reference. Qed.
  Hint Extern 0 (logs _ (fun _ => parse_attribute_reference _ _)) => apply b_attr_ref : blind.
  Lemma b_xref t : blind (parse_cross_reference t).
  Proof. blind_tac parse_cross_reference. Qed.
  Hint Extern 0 (logs _ (fun _ => parse_cross_reference _ _)) => apply b_xref : blind.
  Lemma b_callout t : blind (parse_code_callout t).
  Proof. blind_tac parse_code_callout. Qed.
  Hint Extern 0 (logs _ (fun _ => parse_code_callout _ _)) => apply b_callout : blind.
  Lemma b_leaf t : blind (parse_delimited_leaf_block t).
  Proof. blind_tac parse_delimited_leaf_block. Qed.
  Hint Extern 0 (logs _ (fun _ => parse_delimited_leaf_block _ _)) => apply b_leaf : blind.
  Lemma b_parent t : blind (parse_delimited_parent_block t).
  Proof. unfold blindA. intros. unfold parse_delimited_parent_block. destruct ti; go. Qed.
  Hint Extern 0 (logs _ (fun _ => parse_delimited_parent_block _ _)) => apply b_parent : blind.
  Lemma b_quote t : blind (parse_quote_verse t).
  Proof. blind_tac parse_quote_verse. Qed.
  Hint Extern 0 (logs _ (fun _ => parse_quote_verse _ _)) => apply b_quote : blind.
  Lemma b_comment t : blind (parse_comment_block t).
  Proof. blind_tac parse_comment_block. Qed.
  Hint Extern 0 (logs _ (fun _ => parse_comment_block _ _)) => apply b_comment : blind.
  Lemma b_dispatch t : blind (dispatch w t).
  Proof. unfold blindA. intros. unfold dispatch, parse_block_label. go. Qed.
  Hint Extern 0 (logs _ (fun _ => dispatch _ _ _)) => apply b_dispatch : blind.

  Section Tokens.
    Variable rec : token -> pstate -> result pstate.
    Hypothesis b_rec : forall t, blind (rec t).
    Hint Extern 0 (logs _ (fun _ => rec _ _)) => apply b_rec : blind.
    Lemma b_include_loop s st ts : blind (include_loop rec s st ts).
    Proof.
      revert st. induction ts as [|t ts IH]; intros st; unfold blindA in *; intros; cbn [include_loop]; [go|].
      destruct (include_step s st t) as [[k st']| | | |]; cbn [bind]; try leaf. destruct k; [|apply IH].
      eapply (logs_bind set_asg); [go | intros []; nf; apply IH].
    Qed.
    Hint Extern 0 (logs _ (fun _ => include_loop _ _ _ _ _)) => apply b_include_loop : blind.
    Lemma b_include t : blind (parse_include w rec t).
    Proof. unfold blindA. intros. unfold parse_include, resolve_target. go. Qed.
    Lemma b_cell_loop line col ts : blind (cell_loop rec line col ts).
    Proof.
      induction ts as [|t ts IH]; unfold blindA in *; intros; cbn [cell_loop]; [go|].
      eapply (logs_bind set_asg); [go | intros []; nf; apply IH].
    Qed.
    Hint Extern 0 (logs _ (fun _ => cell_loop _ _ _ _ _)) => apply b_cell_loop : blind.
    Lemma b_cell t : blind (parse_table_cell rec t).
    Proof. unfold blindA. intros. unfold parse_table_cell. go. Qed.
  End Tokens.
  Hint Extern 0 (logs _ (fun _ => parse_include _ _ _ _)) => apply b_include : blind.
  Hint Extern 0 (logs _ (fun _ => parse_table_cell _ _ _)) => apply b_cell : blind.
  Lemma b_token fuel t : blind (token_into w fuel t).
  Proof.
    revert t. induction fuel as [|fuel IH]; intros t; unfold blindA; intros; cbn [token_into].
    - eapply (logs_bind set_asg); [go | intros []; unfold pre_dispatch; go].
    - eapply (logs_bind set_asg); [go | intros []; unfold pre_dispatch]. nf.
      destruct (match p_open_type with None => _ | Some _ => _ end); [go|go|].
      destruct (ttype t); first [apply b_dispatch | apply b_include; exact IH | apply b_cell; exact IH].
  Qed.
  Hint Extern 0 (logs _ (fun _ => token_into _ _ _ _)) => apply b_token : blind.
  Lemma b_loop fuel ts : blind (parse_loop w fuel ts).
  Proof.
    induction ts as [|t ts IH]; unfold blindA in *; intros; cbn [parse_loop]; [go|].
    eapply (logs_bind set_asg); [go | intros []; nf; apply IH].
  Qed.
  Hint Extern 0 (logs _ (fun _ => parse_loop _ _ _ _)) => apply b_loop : blind.
  (** the end of a document *)
  Definition ending (p : pstate) : result pstate := let* p := add_inlines_to_block_stack p in flush_to 0 p.
  Lemma b_ending : blind ending.
  Proof. blind_tac ending. Qed.
  Lemma loop_logs fuel ts p : logs set_asg (fun a => parse_loop w fuel ts (set_asg a p)).
  Proof. destruct p. apply b_loop. Qed.
  Lemma ending_logs p : logs set_asg (fun a => ending (set_asg a p)).
  Proof. destruct p. apply b_ending. Qed.
End Blind.

(** ** What additions do to the blocks *)
Lemma grown_id h m k loc loc' : roomy h -> grown (Blk h m k loc) (Blk h m k loc').
Proof. intros R. rewrite <- (app_nil_r k) at 2. apply grown_more; [exact R | constructor]. Qed.
Lemma snoc_split {A} (k : list A) x l new : k ++ x :: new = l ->
  (new = [] /\ l = k ++ [x]) \/ exists n z, new = n ++ [z] /\ l = (k ++ x :: n) ++ [z].
Proof.
  intros <-. destruct new as [|y new] using rev_ind; [now left | right]. exists new, y. split; [reflexivity|]. rewrite <- app_assoc. reflexivity.
Qed.
Lemma grown_trans b c : grown b c -> forall d, grown c d -> grown b d.
Proof.
  induction 1 as [h m k new loc loc' R F | h m k x x' new loc loc' R G IH F]; intros d D.
  - inversion D as [h0 m0 k0 n0 l0 l0' R0 F0 | h0 m0 k0 y y' n0 l0 l0' R0 G0 F0]; subst.
    + rewrite <- app_assoc. apply grown_more; [exact R|]. apply Forall_app. auto.
    + match goal with Q : _ ++ [y] = k ++ new |- _ => rename Q into E end.
      destruct new as [|z new] using rev_ind.
      * rewrite app_nil_r in E. rewrite <- E. apply grown_last; auto.
      * rewrite app_assoc in E. apply app_inj_tail in E as [-> ->]. apply Forall_app in F as [F Fz].
        rewrite <- app_assoc. apply grown_more; [exact R|]. apply Forall_app. split; [exact F|]. constructor; [|exact F0].
        apply Forall_inv in Fz. clear - G0 Fz. inversion G0; subst; exact Fz.
  - inversion D as [h0 m0 k0 n0 l0 l0' R0 F0 | h0 m0 k0 y y' n0 l0 l0' R0 G0 F0]; subst.
    + rewrite <- app_assoc. cbn [app]. apply grown_last; auto. apply Forall_app. auto.
    + match goal with Q : _ ++ [y] = k ++ _ |- _ => rename Q into E end. symmetry in E. apply snoc_split in E as [[-> E]|(n & z & -> & E)].
      * apply app_inj_tail in E as [-> ->]. apply grown_last; auto.
      * apply app_inj_tail in E as [-> ->]. rewrite <- app_assoc. cbn [app]. apply Forall_app in F as [F Fz]. apply Forall_inv in Fz.
        apply grown_last; [exact R | exact G|]. apply Forall_app. split; [exact F|]. constructor; [|exact F0]. clear - G0 Fz. inversion G0; subst; exact Fz.
Qed.
Lemma later_trans a b : later a b -> forall c, later b c -> later a c.
Proof.
  destruct 1 as [k new | k x x' new G]; intros c D.
  - inversion D as [k0 n0 | k0 y y' n0 G0]; subst.
    + rewrite <- app_assoc. apply later_more.
    + match goal with Q : _ ++ [y] = _ |- _ => rename Q into E end.
      destruct new as [|z new] using rev_ind.
      * rewrite app_nil_r in E. rewrite <- E. now apply later_last.
      * rewrite app_assoc in E. apply app_inj_tail in E as [-> ->]. rewrite <- app_assoc. apply later_more.
  - inversion D as [k0 n0 | k0 y y' n0 G0]; subst.
    + rewrite <- app_assoc. cbn [app]. now apply later_last.
    + match goal with Q : _ ++ [y] = _ |- _ => rename Q into E end. symmetry in E. apply snoc_split in E as [[-> E]|(n & z & -> & E)].
      * apply app_inj_tail in E as [-> ->]. apply later_last. now apply grown_trans with x'.
      * apply app_inj_tail in E as [-> ->]. rewrite <- app_assoc. cbn [app]. now apply later_last.
Qed.
Lemma takes_roomy x b : is_section b = true -> takes_block x b = true -> roomy (b_head x).
Proof. destruct x as [[] ? ? ?], b as [[] ? ? ?]; cbn; intros; try discriminate; exact Logic.I. Qed.
Lemma sec_heading b : is_section b = true -> is_heading b.
Proof. destruct b as [[] ? ? ?]; cbn; intros; try discriminate; exact Logic.I. Qed.
Lemma pushed_grown b : forall nb b', is_section nb = true -> takes_block b nb = true -> push_block b nb = Ok b' -> grown b b'.
Proof.
  induction b as [h m k loc IH] using block_ind2. intros nb b' Sn T H. pose proof (sec_heading nb Sn) as Hn.
  pose proof (takes_roomy _ _ Sn T) as R. cbn [b_head] in R. assert (Forall is_heading [nb]) as Fn by (constructor; [exact Hn | constructor]).
  cbn [push_block] in H. destruct h; try contradiction; clear T.
  - rewrite Sn in H. destruct (last_opt k) as [x|] eqn:El.
    + apply last_opt_inv in El as [k0 ->]. apply Forall_app in IH as [_ IH]. apply Forall_inv in IH.
      destruct (takes_block x nb) eqn:Et.
      * rewrite upd_last_snoc in H. destruct (push_block x nb) as [x'| | | |] eqn:Ex; try discriminate. cbn [bind consolidate_locations] in H.
        injection H as <-. apply grown_last; [exact R | now apply IH with nb | constructor].
      * cbn [bind consolidate_locations] in H. injection H as <-. now apply grown_more.
    + cbn [bind consolidate_locations] in H. injection H as <-. now apply grown_more.
  - cbn [bind consolidate_locations] in H. destruct (last_locs (k ++ [nb])); injection H as <-; now apply grown_more.
  - cbn [bind consolidate_locations] in H. destruct (last_locs (k ++ [nb])); injection H as <-; now apply grown_more.
  - assert (is_list_item nb = false) as Li by (destruct nb as [[] ? ? ?]; cbn in *; congruence). rewrite Li in H.
    destruct (_ && _) in H; [discriminate|]. cbn [bind consolidate_locations] in H. injection H as <-. now apply grown_more.
Qed.
Lemma push_later a b a' : asg_push_block a b = Ok a' -> later (a_blocks a) (a_blocks a').
Proof.
  unfold asg_push_block. set (c := consolidate_locations b). intros H.
  destruct (is_section c) eqn:Sc; [|injection H as <-; apply later_more].
  destruct (last_opt (a_blocks a)) as [x|] eqn:El; [|injection H as <-; apply later_more].
  destruct (takes_block x c) eqn:Et; [|injection H as <-; apply later_more].
  apply last_opt_inv in El as [k0 E]. rewrite E in *. rewrite upd_last_snoc in H.
  destruct (push_block x c) as [x'| | | |] eqn:Ex; try discriminate. injection H as <-. cbn [a_blocks].
  apply later_last. now apply pushed_grown with c.
Qed.
Lemma replay_later w l : forall a a', replay w l a = Ok a' -> later (a_blocks a) (a_blocks a').
Proof.
  induction l as [|x l IH]; intros a a' H; cbn [replay] in H.
  - injection H as <-. rewrite <- (app_nil_r (a_blocks a)) at 2. apply later_more.
  - destruct (adds w x a) as [b| | | |] eqn:E; try discriminate. cbn [bind] in H. apply IH in H. refine (later_trans _ _ _ _ H).
    destruct x; cbn [adds] in E; [now apply push_later in E|]. injection E as <-. cbn [asg_add_header a_blocks].
    rewrite <- (app_nil_r (a_blocks a)) at 2. apply later_more.
Qed.

(** two graphs that end alike *)
Definition both (l1 l2 : list block) (a1 a2 : asg) : Prop :=
  exists m, a_blocks a1 = l1 ++ m /\ a_blocks a2 = l2 ++ m /\ (m = [] -> shut l1 /\ shut l2).
Definition same_graph (l1 l2 : list block) (r1 r2 : result asg) : Prop :=
  match r1, r2 with
  | Ok a1, Ok a2 => both l1 l2 a1 a2
  | Err e1, Err e2 => e1 = e2
  | Panic, Panic | Hang, Hang | Exit, Exit => True
  | _, _ => False
  end.
Lemma shut_takes l b x : shut l -> last_opt l = Some x -> is_section b = true -> takes_block x b = false.
Proof.
  intros H E Sb. apply last_opt_inv in E as [k E]. specialize (H k x E). destruct (takes_block x b) eqn:T; [|reflexivity].
  destruct H. now apply takes_roomy with b.
Qed.
Lemma push_both l1 l2 a1 a2 b : both l1 l2 a1 a2 -> same_graph l1 l2 (asg_push_block a1 b) (asg_push_block a2 b).
Proof.
  intros (m & E1 & E2 & K). unfold asg_push_block. set (c := consolidate_locations b). rewrite E1, E2.
  assert (forall i1 i2, same_graph l1 l2 (Ok (mkAsg (a_attrs a1) (a_header a1) (a_docid a1) i1 ((l1 ++ m) ++ [c]) (a_loc a1)))
            (Ok (mkAsg (a_attrs a2) (a_header a2) (a_docid a2) i2 ((l2 ++ m) ++ [c]) (a_loc a2)))) as Fin.
  { intros i1 i2. exists (m ++ [c]). cbn [a_blocks]. rewrite !app_assoc. repeat split; auto; now destruct m. }
  destruct (is_section c) eqn:Sc; [|apply Fin].
  destruct m as [|z m _] using rev_ind.
  - destruct (K eq_refl) as [S1 S2]. rewrite !app_nil_r in *.
    assert (forall l, shut l -> match last_opt l with Some x => if takes_block x c then upd_last (fun y => push_block y c) l else Ok (l ++ [c]) | None => Ok (l ++ [c]) end = Ok (l ++ [c])) as Q.
    { intros l Sl. destruct (last_opt l) eqn:El; [|reflexivity]. now rewrite (shut_takes l c _ Sl El Sc). }
    rewrite (Q l1 S1), (Q l2 S2). cbn [bind]. apply Fin.
  - rewrite !app_assoc, !last_opt_snoc. destruct (takes_block z c); [|cbn [bind]; rewrite <- !(app_assoc _ m [z]); apply Fin].
    rewrite !upd_last_snoc. destruct (push_block z c) as [z'| | | |]; cbn [bind same_graph]; auto.
    exists (m ++ [z']). cbn [a_blocks]. rewrite !app_assoc. repeat split; auto; now destruct m.
Qed.
Lemma replay_both w l1 l2 l : forall a1 a2, both l1 l2 a1 a2 -> same_graph l1 l2 (replay w l a1) (replay w l a2).
Proof.
  induction l as [|x l IH]; intros a1 a2 H; [exact H|]. cbn [replay].
  assert (same_graph l1 l2 (adds w x a1) (adds w x a2)) as G by (destruct x; cbn [adds]; [now apply push_both | exact H]).
  destruct (adds w x a1), (adds w x a2); cbn [bind same_graph] in *; try contradiction; auto.
Qed.

(** ** Whole runs *)
Section Runs.
  Variables (w : world) (g : pstate -> result pstate).
  Hypothesis g_logs : forall p, logs w set_asg (fun a => g (set_asg a p)).
  Lemma runs_later p p' : g p = Ok p' -> later (a_blocks (p_asg p)) (a_blocks (p_asg p')).
  Proof.
    intros H. destruct (g_logs p) as (l & out & K). specialize (K (p_asg p)). replace (set_asg (p_asg p) p) with p in K by now destruct p.
    rewrite H in K. unfold play in K. destruct (replay w l (p_asg p)) as [b| | | |] eqn:E; try discriminate. cbn [bind] in K.
    destruct out as [x| | | |]; try discriminate. cbn [bind] in K. injection K as ->. cbn [set_asg p_asg]. now apply replay_later in E.
  Qed.
  Lemma runs_same p a1 a2 : shut (a_blocks a1) -> shut (a_blocks a2) ->
    same_but (a_blocks a1) (a_blocks a2) (g (set_asg a1 p)) (g (set_asg a2 p)).
  Proof.
    intros S1 S2. destruct (g_logs p) as (l & out & K). rewrite !K. unfold play.
    assert (both (a_blocks a1) (a_blocks a2) a1 a2) as B by (exists []; rewrite !app_nil_r; auto).
    apply (replay_both w _ _ l) in B. destruct (replay w l a1) as [b1| | | |], (replay w l a2) as [b2| | | |]; cbn [bind same_graph same_but] in *; try contradiction; auto.
    destruct out as [x| | | |]; cbn [bind same_but]; auto. split; [reflexivity|]. cbn [set_asg p_asg]. destruct B as (m & E1 & E2 & _). eauto.
  Qed.
End Runs.
Lemma loop_later w fuel ts p p' : parse_loop w fuel ts p = Ok p' -> later (a_blocks (p_asg p)) (a_blocks (p_asg p')).
Proof. apply (runs_later w). intros. apply loop_logs. Qed.
Lemma loop_same w fuel ts p a1 a2 : shut (a_blocks a1) -> shut (a_blocks a2) ->
  same_but (a_blocks a1) (a_blocks a2) (parse_loop w fuel ts (set_asg a1 p)) (parse_loop w fuel ts (set_asg a2 p)).
Proof. apply (runs_same w). intros. apply loop_logs. Qed.
Lemma loop_app w fuel ts us p : parse_loop w fuel (ts ++ us) p = let* q := parse_loop w fuel ts p in parse_loop w fuel us q.
Proof. revert p. induction ts as [|t ts IH]; intros p; [reflexivity|]. cbn [app parse_loop]. destruct (token_into w fuel t p); cbn [bind]; auto. Qed.
Lemma shut_later l l' : shut l -> later l l' -> exists new, l' = l ++ new.
Proof.
  intros S0 H. destruct H as [k new | k x x' new G]; [eauto|]. destruct (S0 k x eq_refl). destruct G; cbn; assumption.
Qed.
(** the parse of a document some of whose tokens have been parsed *)
Lemma parse_later w fuel ts us e p p1 a q :
  parse_loop w fuel ts (set_asg new_asg p) = Ok p1 -> parse_with w fuel (ts ++ us, e) p = Ok (a, q) ->
  later (a_blocks (p_asg p1)) (a_blocks (p_asg q)).
Proof.
  intros H K. unfold parse_with in K. cbn [fst snd] in K. rewrite loop_app, H in K. cbn [bind] in K.
  destruct (parse_loop w fuel us p1) as [p2| | | |] eqn:E2; try discriminate. cbn [bind] in K. destruct e as [[]| | | |]; try discriminate. cbn [bind] in K.
  apply loop_later in E2. refine (later_trans _ _ E2 _ _).
  assert (ending p2 = Ok q) as E3.
  { unfold ending. destruct (add_inlines_to_block_stack p2) as [p3| | | |]; try discriminate. cbn [bind] in *. destruct (flush_to 0 p3); try discriminate. cbn [bind] in K. congruence. }
  exact (runs_later w ending (fun p => ending_logs w p) _ _ E3).
Qed.

(** ** The texts of the references *)
Lemma own_compose f g h : map_own_inlines g (map_own_inlines f h) = map_own_inlines (fun i => g (f i)) h.
Proof. destruct h; cbn; rewrite ?map_map; reflexivity. Qed.
Lemma map_compose f g b : map_inlines g (map_inlines f b) = map_inlines (fun i => g (f i)) b.
Proof.
  induction b as [h m k loc IH] using block_ind2. cbn [map_inlines]. rewrite own_compose, map_map. f_equal.
  apply map_ext_in. intros x Hx. rewrite Forall_forall in IH. now apply IH.
Qed.
Lemma own_ext f g h : (forall i, f i = g i) -> map_own_inlines f h = map_own_inlines g h.
Proof. intros E. destruct h; cbn; try reflexivity; now rewrite ?(map_ext _ _ E). Qed.
Lemma inlines_ext f g b : (forall i, f i = g i) -> map_inlines f b = map_inlines g b.
Proof.
  intros E. induction b as [h m k loc IH] using block_ind2. cbn [map_inlines]. rewrite (own_ext f g h E). f_equal.
  apply map_ext_in. intros x Hx. rewrite Forall_forall in IH. now apply IH.
Qed.
Lemma unref_standard ids b : unref (map_inlines (xref_standardize ids) b) = unref b.
Proof.
  unfold unref. rewrite map_compose. apply inlines_ext. intros [|[] t ? ? ?| |]; cbn; try reflexivity. now destruct (mget t ids).
Qed.
Lemma roomy_map f h : roomy (map_own_inlines f h) <-> roomy h.
Proof. destruct h; cbn; tauto. Qed.
Lemma headings_map f l : Forall is_heading l -> Forall is_heading (map (map_inlines f) l).
Proof. induction 1 as [|x l H _ IH]; constructor; [|exact IH]. destruct x as [[] ? ? ?]; exact H. Qed.
Lemma grown_map f b b' : grown b b' -> grown (map_inlines f b) (map_inlines f b').
Proof.
  induction 1 as [h m k new loc loc' R F | h m k x x' new loc loc' R G IH F]; cbn [map_inlines]; rewrite !map_app.
  - apply grown_more; [now apply roomy_map | now apply headings_map].
  - cbn [map]. apply grown_last; [now apply roomy_map | exact IH | now apply headings_map].
Qed.
Lemma later_map f l l' : later l l' -> later (map (map_inlines f) l) (map (map_inlines f) l').
Proof. destruct 1 as [k new | k x x' new G]; rewrite !map_app; [apply later_more|]. cbn [map]. apply later_last. now apply grown_map. Qed.

(** ** Sources *)
Lemma stream_ok f : forall sc ts, collect f sc = Ok ts -> stream_from f sc = (ts, Ok Datatypes.tt).
Proof.
  induction f as [|f IH]; intros sc ts H; [discriminate|]. cbn [collect stream_from] in *.
  destruct (next sc) as [[[t|] sc']| | | |]; cbn [bind] in H; try discriminate; [|now injection H as <-].
  destruct (collect f sc') as [us| | | |] eqn:E; try discriminate. injection H as <-. now rewrite (IH sc' us E).
Qed.
Lemma parse_graph w fuel s p a q : parse_with w fuel s p = Ok (a, q) -> a = asg_consolidate (p_asg q).
Proof.
  unfold parse_with. intros H. destruct (parse_loop _ _ _ _); try discriminate. cbn [bind] in H. destruct (snd s); try discriminate. cbn [bind] in H.
  destruct (add_inlines_to_block_stack _); try discriminate. cbn [bind] in H. destruct (flush_to _ _); try discriminate. cbn [bind] in H. congruence.
Qed.
Lemma below_later w fuel origin resolve a ts e b tb p1 g :
  utf8 a -> ends [NL] a -> scan a = Ok (ts ++ [e]) -> no_tags (ts ++ [e]) -> last_not THyperlink ts ->
  utf8 b -> scan b = Ok tb -> no_tags tb ->
  parse_loop w fuel ts (new_parser origin resolve) = Ok p1 -> parse w fuel origin resolve (a ++ b) = Ok g ->
  later (map unref (a_blocks (p_asg p1))) (map unref (a_blocks g)).
Proof.
  intros Ua Ea Sa Na Hl Ub Sb Nb L P. destruct (joined a [] ts e Ua Ea Sa Na b tb Hl Ub Sb Nb) as (tl & Sab & _).
  unfold scan_with in Sab. apply stream_ok in Sab. unfold parse in P. unfold scan_stream in P. rewrite Sab in P.
  destruct (parse_with w fuel (ts ++ tl, Ok Datatypes.tt) (new_parser origin resolve)) as [[g' q]| | | |] eqn:Pw; try discriminate. cbn [bind] in P. injection P as <-.
  pose proof (parse_later w fuel ts tl (Ok Datatypes.tt) (new_parser origin resolve) p1 g' q L Pw) as Lt.
  apply parse_graph in Pw as ->.
  cbn [asg_consolidate a_blocks]. rewrite map_map, (map_ext _ _ (unref_standard _)). now apply later_map.
Qed.
(** the rest of a document *)
Definition finish (w : world) (fuel : nat) (us : list token) (p : pstate) : result pstate :=
  let* p := parse_loop w fuel us p in ending p.
Lemma finish_logs w fuel us p : logs w set_asg (fun a => finish w fuel us (set_asg a p)).
Proof.
  unfold finish. apply (logs_bind w set_asg); [apply loop_logs | intros x; apply ending_logs].
Qed.
Lemma parse_finish w fuel origin resolve src ts us p1 : scan src = Ok (ts ++ us) -> parse_loop w fuel ts (new_parser origin resolve) = Ok p1 ->
  parse w fuel origin resolve src = let* q := finish w fuel us p1 in Ok (asg_consolidate (p_asg q)).
Proof.
  intros Sc L. unfold scan, scan_with in Sc. apply stream_ok in Sc. unfold parse, scan_stream. rewrite Sc. unfold parse_with. cbn [fst snd bind]. rewrite loop_app.
  change (set_asg new_asg (new_parser origin resolve)) with (new_parser origin resolve). rewrite L. cbn [bind]. unfold finish, ending.
  destruct (parse_loop w fuel us p1); cbn [bind]; try reflexivity. destruct (add_inlines_to_block_stack _); cbn [bind]; try reflexivity. destruct (flush_to _ _); reflexivity.
Qed.
Lemma graph_back p q : set_asg new_asg p = set_asg new_asg q -> q = set_asg (p_asg q) p.
Proof. destruct p, q. cbn. intros E. injection E. intros. subst. reflexivity. Qed.
Lemma below_same w fuel origin resolve a1 ts1 e1 p1 a2 ts2 e2 p2 b tb :
  utf8 a1 -> ends [NL] a1 -> scan a1 = Ok (ts1 ++ [e1]) -> no_tags (ts1 ++ [e1]) -> last_is TNewLineChar ts1 ->
  utf8 a2 -> ends [NL] a2 -> scan a2 = Ok (ts2 ++ [e2]) -> no_tags (ts2 ++ [e2]) -> last_is TNewLineChar ts2 ->
  newlines ts1 = newlines ts2 ->
  parse_loop w fuel ts1 (new_parser origin resolve) = Ok p1 -> parse_loop w fuel ts2 (new_parser origin resolve) = Ok p2 ->
  set_asg new_asg p1 = set_asg new_asg p2 -> shut (a_blocks (p_asg p1)) -> shut (a_blocks (p_asg p2)) ->
  utf8 b -> scan b = Ok tb -> no_tags tb ->
  same_text (map unref (a_blocks (p_asg p1))) (map unref (a_blocks (p_asg p2)))
    (parse w fuel origin resolve (a1 ++ b)) (parse w fuel origin resolve (a2 ++ b)).
Proof.
  intros U1 E1 S1 N1 H1 U2 E2 S2 N2 H2 En L1 L2 Ep Sh1 Sh2 Ub Sb Nb.
  assert (forall ts, last_is TNewLineChar ts -> last_not THyperlink ts) as Hn.
  { intros ts (p & t & -> & Et) p' t' E. apply app_inj_tail in E as [_ <-]. congruence. }
  destruct (joined a1 [] ts1 e1 U1 E1 S1 N1 b tb (Hn _ H1) Ub Sb Nb) as (tl1 & J1 & _ & _ & K1).
  destruct (joined a2 [] ts2 e2 U2 E2 S2 N2 b tb (Hn _ H2) Ub Sb Nb) as (tl2 & J2 & _ & _ & K2).
  rewrite (K1 H1) in J1. rewrite (K2 H2), <- En in J2. set (us := map (lowered (newlines ts1)) tb) in *.
  rewrite (parse_finish w fuel origin resolve _ ts1 us p1 J1 L1), (parse_finish w fuel origin resolve _ ts2 us p2 J2 L2).
  pose proof (runs_same w (finish w fuel us) (fun p => finish_logs w fuel us p) p1 (p_asg p1) (p_asg p2) Sh1 Sh2) as B.
  rewrite <- (graph_back p1 p2 Ep) in B. replace (set_asg (p_asg p1) p1) with p1 in B by now destruct p1.
  destruct (finish w fuel us p1) as [q1| | | |], (finish w fuel us p2) as [q2| | | |]; cbn [same_but same_text bind] in *; try contradiction; auto.
  destruct B as (_ & new & B1 & B2). exists (map unref new). cbn [asg_consolidate a_blocks].
  rewrite !map_map, !(map_ext _ _ (unref_standard _)), B1, B2, !map_app. auto.
Qed.

(** ** Blank lines *)
Lemma utf8_blank n : utf8 (repeat NL n).
Proof. induction n as [|n IH]; constructor; [split; cbv; discriminate | exact IH]. Qed.
Lemma scan_blank n : exists ts e, scan (repeat NL (S n)) = Ok (ts ++ [e]) /\ no_tags (ts ++ [e]) /\ last_is TNewLineChar ts /\ newlines ts = S n
  /\ Forall (fun t => ttype t = TNewLineChar) ts.
Proof.
  assert (exists t e, scan [NL] = Ok ([t] ++ [e]) /\ ttype t = TNewLineChar /\ no_tags ([t] ++ [e]) /\ no_tags [t]) as (t0 & e0 & S0 & T0 & N0 & _).
  { eexists _, _. split; [vm_compute; reflexivity|]. repeat split; repeat constructor; intros [K|K]; discriminate. }
  assert (forall t, ttype t = TNewLineChar -> last_is TNewLineChar [t]) as L1 by (intros t Et; exists [], t; auto).
  assert (forall t, ttype t = TNewLineChar -> newlines [t] = 1) as C1 by (intros t Et; unfold newlines; cbn [filter]; now rewrite Et).
  induction n as [|n (ts & e & Sc & N & L & C & F)].
  - exists [t0], e0. change (repeat NL 1) with [NL]. auto 10.
  - assert (last_not THyperlink [t0]) as Hn by (intros p t E; destruct p as [|? [|]]; try discriminate; injection E as <-; congruence).
    destruct (joined [NL] [] [t0] e0 (utf8_blank 1) (ex_intro _ [] eq_refl) S0 N0 _ _ Hn (utf8_blank (S n)) Sc N) as (tl & J & Nt & _ & K).
    rewrite (K (L1 _ T0)), map_app in J. rewrite (K (L1 _ T0)), map_app in Nt. cbn [map] in J, Nt.
    set (us := map (lowered (newlines [t0])) ts) in *.
    assert (forall l, newlines (map (lowered (newlines [t0])) l) = newlines l) as Nl.
    { induction l as [|x l IHl]; [reflexivity|]. unfold newlines in *. cbn [map filter lowered ttype]. destruct (ttype x); cbn [List.length]; auto. }
    exists (t0 :: us), (lowered (newlines [t0]) e). split; [exact J|]. split; [constructor; [exact (Forall_inv N0) | exact Nt]|].
    split; [destruct L as (p & t & -> & Et); exists (t0 :: map (lowered (newlines [t0])) p), (lowered (newlines [t0]) t); unfold us; rewrite map_app; auto|].
    split; [|constructor; [exact T0|]; unfold us; apply Forall_map; exact F].
    change (t0 :: us) with ([t0] ++ us). unfold newlines. rewrite filter_app, app_length. fold (newlines [t0]). fold (newlines us). unfold us. rewrite Nl, C, C1; auto.
Qed.
Definition idle_state (origin : bytes) (resolve : bool) : pstate := set_force_new true (set_last TNewLineChar (new_parser origin resolve)).
Lemma idle_is origin resolve p : idle origin resolve p <-> set_asg new_asg p = idle_state origin resolve.
Proof.
  unfold idle. split.
  - intros (H1 & H2 & H3 & H4 & H5 & H6 & H7 & H8 & H9 & H10 & H11 & H12 & H13 & H14 & H15 & H16 & H17 & H18 & H19 & H20).
    unfold set_asg, idle_state. now rewrite H1, H2, H3, H4, H5, H6, H7, H8, H9, H10, H11, H12, H13, H14, H15, H16, H17, H18, H19, H20.
  - intros H. destruct p. unfold set_asg, idle_state in H. cbn in H. injection H. intros. subst. cbn. auto 25.
Qed.
Lemma blank_newline w t l f o r : ttype t = TNewLineChar -> l = TNewLineChar \/ l = TEof ->
  parse_new_line_char w t (mkP o l None [] [] [] [] None None [] None 0%Z false false false f false false None r new_asg)
  = Ok (mkP o l None [] [] [] [] None None [] None 0%Z false false false true false false None r new_asg).
Proof. intros T [-> | ->]; unfold parse_new_line_char, add_inlines_to_block_stack; nf0; reflexivity. Qed.
Lemma blank_step w fuel t l f o r : ttype t = TNewLineChar -> l = TNewLineChar \/ l = TEof ->
  token_into w fuel t (mkP o l None [] [] [] [] None None [] None 0%Z false false false f false false None r new_asg)
  = Ok (mkP o l None [] [] [] [] None None [] None 0%Z false false false true false false None r new_asg).
Proof.
  intros T L. destruct fuel; cbn [token_into p_header bind pre_dispatch p_open_type]; rewrite T; unfold dispatch; rewrite T; now apply blank_newline.
Qed.
Lemma blank_loop w fuel origin resolve ts : ts <> [] -> Forall (fun t => ttype t = TNewLineChar) ts ->
  parse_loop w fuel ts (new_parser origin resolve) = Ok (idle_state origin resolve).
Proof.
  assert (forall ts, Forall (fun t => ttype t = TNewLineChar) ts -> parse_loop w fuel ts (idle_state origin resolve) = Ok (idle_state origin resolve)) as G.
  { induction 1 as [|t l T F IH]; [reflexivity|]. cbn [parse_loop]. unfold idle_state, new_parser in *. unfold set_force_new, set_last in *. cbn [p_origin p_last p_header p_attrs p_bstack p_istack p_files p_title p_meta p_open_lines p_open_type p_offset p_in_line p_in_span p_in_cont p_force_new p_preserve_nl p_close_parent p_dangling p_resolve p_asg] in *.
    rewrite (blank_step w fuel t TNewLineChar true origin resolve T) by auto. cbn [bind]. rewrite T. exact IH. }
  intros Ne F. destruct F as [|t l T F]; [congruence|]. cbn [parse_loop]. unfold new_parser.
  rewrite (blank_step w fuel t TEof false origin resolve T) by auto. cbn [bind]. rewrite T. exact (G l F).
Qed.
Lemma below_blank w fuel origin resolve a ts e p1 b tb :
  utf8 a -> ends [NL] a -> scan a = Ok (ts ++ [e]) -> no_tags (ts ++ [e]) -> last_is TNewLineChar ts ->
  parse_loop w fuel ts (new_parser origin resolve) = Ok p1 -> idle origin resolve p1 -> shut (a_blocks (p_asg p1)) ->
  utf8 b -> scan b = Ok tb -> no_tags tb ->
  same_text (map unref (a_blocks (p_asg p1))) []
    (parse w fuel origin resolve (a ++ b)) (parse w fuel origin resolve (repeat NL (newlines ts) ++ b)).
Proof.
  intros U E Sc N L P Id Sh Ub Sb Nb.
  assert (exists n, newlines ts = S n) as (n & En).
  { destruct L as (p & t & -> & Et). unfold newlines. rewrite filter_app, app_length. cbn [filter]. rewrite Et. cbn [List.length]. exists (List.length (filter (fun t => match ttype t with TNewLineChar => true | _ => false end) p)). now rewrite Nat.add_1_r. }
  destruct (scan_blank n) as (ts2 & e2 & S2 & N2 & L2 & C2 & F2). rewrite En.
  assert (ts2 <> []) as Ne by (intros ->; discriminate C2).
  assert (ends [NL] (repeat NL (S n))) as Eb by (exists (repeat NL n); apply repeat_cons).
  apply (below_same w fuel origin resolve a ts e p1 (repeat NL (S n)) ts2 e2 (idle_state origin resolve) b tb); auto.
  - apply utf8_blank.
  - congruence.
  - now apply blank_loop.
  - rewrite (proj1 (idle_is _ _ _) Id). reflexivity.
  - intros k x K. destruct k; discriminate.
Qed.
