(** * Two places with the same files *)
From Verif Require Import Base World Location Token Scanner Meta Inline Block Asg Parser SpecScan SpecPlace SpecResolve UnreadProofs PlaceProofs.
Local Open Scope char_scope.
Local Open Scope nat_scope.

Section Moved.
  Variables (w : world) (canon read : bytes -> option bytes) (o o' : bytes).
  Notation w' := (with_files w canon read).
  Hypothesis H : same_files w o w' o'.
  Definition tied (r r' : result pstate) : Prop := exists out, r = keep seto o out /\ r' = keep seto o' out.
  Lemma tied_blind f p : blindA seto f -> tied (f (seto o p)) (f (seto o' p)).
  Proof.
    intros B. destruct p. match goal with |- tied (f (seto o (mkP _ ?l ?h ?at_ ?bs_ ?is_ ?fi ?ti ?me ?ol ?ot ?off ?il ?isp ?ic ?fn ?pn ?cp ?da ?re ?a))) _ =>
      destruct (B l h at_ bs_ is_ fi ti me ol ot off il isp ic fn pn cp da re a) as (out & E) end.
    exists out. split; apply E.
  Qed.
  Lemma tied_bind r r' k k' : tied r r' -> (forall p, tied (k (seto o p)) (k' (seto o' p))) -> tied (bind r k) (bind r' k').
  Proof.
    intros (out & -> & ->) K. destruct out as [p|e| | |]; cbn [keep bind]; [apply K|exists (Err e)|exists Panic|exists Hang|exists Exit]; split; reflexivity.
  Qed.
  Lemma tied_same {A} (m : result A) k k' : (forall x, tied (k x) (k' x)) -> tied (bind m k) (bind m k').
  Proof. intros K. destruct m as [x|e| | |]; cbn [bind]; [apply K|exists (Err e)|exists Panic|exists Hang|exists Exit]; split; reflexivity. Qed.
  Lemma tied_ok p : tied (Ok (seto o p)) (Ok (seto o' p)).
  Proof. exists (Ok p). split; reflexivity. Qed.
  Lemma dispatch_moved t p : ttype t <> TBlockImageMacro -> dispatch w' t p = dispatch w t p.
  Proof. intros N. unfold dispatch. destruct (ttype t); first [reflexivity | congruence]. Qed.
  Lemma check_moved line target p : check_target w line target (seto o p) = check_target w' line target (seto o' p).
  Proof.
    unfold check_target, resolve_target. cbn [p_resolve p_origin p_files seto]. specialize (H (p_files p) target).
    change (resolve_path o (p_files p) target) with (looked_up o (p_files p) target). change (resolve_path o' (p_files p) target) with (looked_up o' (p_files p) target).
    destruct (p_resolve p); [|reflexivity]. destruct (w_canon w _), (w_canon w' _); now try destruct H.
  Qed.
  Lemma image_moved t p : tied (parse_block_image w t (seto o p)) (parse_block_image w' t (seto o' p)).
  Proof.
    unfold parse_block_image. change (target_and_attrs_from_token w' t) with (target_and_attrs_from_token w t). apply tied_same. intros [target m].
    rewrite <- check_moved. apply tied_same. intros _. cbn [p_meta seto].
    destruct p as [po pl ph pat pbs pis pfi pti pme pol pot poff pil pisp pic pfn ppn pcp pda pre pa]. cbn [p_meta].
    destruct pme, pti; cbv beta iota zeta delta [p_title set_title set_meta seto p_origin p_last p_header p_attrs p_bstack p_istack p_files p_title p_meta p_open_lines p_open_type p_offset p_in_line p_in_span p_in_cont p_force_new p_preserve_nl p_close_parent p_dangling p_resolve p_asg];
      (lazymatch goal with |- tied (add_to_block_stack_or_graph ?b (mkP _ ?l ?h ?at_ ?bs_ ?is_ ?fi ?ti ?me ?ol ?ot ?off ?il ?isp ?ic ?fn ?pn ?cp ?da ?re ?a)) _ =>
        exact (tied_blind (add_to_block_stack_or_graph b) (mkP o l h at_ bs_ is_ fi ti me ol ot off il isp ic fn pn cp da re a) (b_to b)) end).
  Qed.
  Lemma ranges_moved l : range_fields w l = range_fields w' l.
  Proof. induction l as [|x l IH]; [reflexivity|]. cbn [range_fields]. now rewrite <- IH. Qed.
  Lemma spec_moved target m : include_spec_of w' target m = include_spec_of w target m.
  Proof. unfold include_spec_of, extract_page_ranges. destruct m as [md|]; [|reflexivity]. destruct (mget (bs "lines") (m_attrs md)); [|reflexivity]. now rewrite <- ranges_moved. Qed.
  Section Rec.
    Variables rec rec' : token -> pstate -> result pstate.
    Hypothesis R : forall t p, tied (rec t (seto o p)) (rec' t (seto o' p)).
    Lemma loop_moved s ts : forall st p, tied (include_loop rec s st ts (seto o p)) (include_loop rec' s st ts (seto o' p)).
    Proof.
      induction ts as [|t ts IH]; intros st p; cbn [include_loop]; [apply tied_ok|]. apply tied_same. intros [keep st']. destruct keep; [|apply IH].
      apply tied_bind; [|intros q; apply IH]. destruct (inc_adoc s).
      - apply tied_bind; [apply R|]. intros q. exact (tied_ok (set_last (ttype t) q)).
      - exact (tied_blind (parse_text t) (set_last (if tt_eqb (ttype t) TEof then TEof else Token.TText) p) (b_text t)).
    Qed.
    Lemma include_moved t p : tied (parse_include w rec t (seto o p)) (parse_include w' rec' t (seto o' p)).
    Proof.
      unfold parse_include. change (target_and_attrs_from_token w' t) with (target_and_attrs_from_token w t). apply tied_same. intros [target m].
      apply tied_bind.
      - destruct m as [md|]; [|apply tied_ok]. destruct (mget (bs "leveloffset") (m_attrs md)) as [v|]; [|apply tied_ok].
        change (parse_level_offset w' v) with (parse_level_offset w v). exact (tied_blind (parse_level_offset w v) p (b_offset w v)).
      - intros q. rewrite (spec_moved target m). apply tied_same. intros spec. cbv zeta.
        unfold resolve_target. cbn [p_origin p_files seto]. specialize (H (p_files q) target).
        change (resolve_path o (p_files q) target) with (looked_up o (p_files q) target). change (resolve_path o' (p_files q) target) with (looked_up o' (p_files q) target).
        destruct (w_canon w (looked_up o (p_files q) target)) as [pa|], (w_canon w' (looked_up o' (p_files q) target)) as [pa'|]; [|destruct H|destruct H|];
          cbn [bind]; [|exists (Err (ETargetResolution (tline t) target)); split; reflexivity].
        rewrite <- H. destruct (w_read w pa) as [content|]; [|exists Exit; split; reflexivity]. cbn [p_files set_files seto].
        destruct (scan_stream content (p_files q ++ [target])) as [ts e].
        apply tied_bind; [exact (loop_moved spec ts (inc_lines spec, None) (set_files (p_files q ++ [target]) q))|]. intros q1. apply tied_same. intros _.
        apply tied_bind; [exact (tied_blind _ q1 b_inlines)|]. intros q2. cbn [p_bstack set_files seto].
        apply tied_bind; [exact (tied_blind _ q2 (b_flush_to _))|]. intros q3. exact (tied_ok (set_files (removelast (p_files q3)) q3)).
    Qed.
    Lemma cell_loop_moved line col ts : forall p, tied (cell_loop rec line col ts (seto o p)) (cell_loop rec' line col ts (seto o' p)).
    Proof. induction ts as [|t ts IH]; intros p; cbn [cell_loop]; [apply tied_ok|]. apply tied_bind; [apply R|exact IH]. Qed.
    Lemma cell_moved t p : tied (parse_table_cell rec t (seto o p)) (parse_table_cell rec' t (seto o' p)).
    Proof.
      unfold parse_table_cell. cbv zeta. apply tied_same. intros contents. apply tied_bind; [exact (tied_blind _ p (b_push _))|]. intros q.
      destruct (scan_stream contents []) as [ts e]. apply tied_bind; [exact (cell_loop_moved (tline t) (startcol t) ts (set_dangling None q))|].
      intros q1. apply tied_same. intros _. exact (tied_blind _ (set_force_new false (set_in_line false q1)) b_inlines).
    Qed.
  End Rec.
  Lemma token_moved fuel : forall t p, tied (token_into w fuel t (seto o p)) (token_into w' fuel t (seto o' p)).
  Proof.
    assert (forall t p, ttype t <> TInclude -> ttype t <> TTableCell -> tied (dispatch w t (seto o p)) (dispatch w' t (seto o' p))) as D.
    { intros t p A B. destruct (tt_eqb (ttype t) TBlockImageMacro) eqn:T.
      - assert (ttype t = TBlockImageMacro) as T' by (destruct (ttype t); try discriminate T; reflexivity).
        unfold dispatch. rewrite T'. apply image_moved.
      - assert (ttype t <> TBlockImageMacro) as T' by (intros T'; rewrite T' in T; discriminate T).
        rewrite (dispatch_moved t (seto o' p) T'). exact (tied_blind (dispatch w t) p (b_dispatch w t T')). }
    induction fuel as [|fuel IH]; intros t p; cbn [token_into]; cbn [p_header seto].
    - apply tied_bind.
      + destruct (p_header p); [|apply tied_ok]. destruct (can_be_in_document_header t); [apply tied_ok|].
        change (check_and_move_header w') with (check_and_move_header w). exact (tied_blind _ p (b_header w)).
      + intros q. change (pre_dispatch t (seto o' q)) with (pre_dispatch t (seto o q)). destruct (pre_dispatch t (seto o q)).
        * exact (tied_blind _ q (b_text t)).
        * exact (tied_blind _ q (b_pass t)).
        * specialize (D t q). destruct (ttype t); try (apply D; discriminate); exists Hang; split; reflexivity.
    - apply tied_bind.
      + destruct (p_header p); [|apply tied_ok]. destruct (can_be_in_document_header t); [apply tied_ok|].
        change (check_and_move_header w') with (check_and_move_header w). exact (tied_blind _ p (b_header w)).
      + intros q. change (pre_dispatch t (seto o' q)) with (pre_dispatch t (seto o q)). destruct (pre_dispatch t (seto o q)).
        * exact (tied_blind _ q (b_text t)).
        * exact (tied_blind _ q (b_pass t)).
        * specialize (D t q). destruct (ttype t); try (apply D; discriminate); [apply cell_moved|apply include_moved]; exact IH.
  Qed.
  Lemma tokens_moved fuel ts : forall p, tied (parse_loop w fuel ts (seto o p)) (parse_loop w' fuel ts (seto o' p)).
  Proof.
    induction ts as [|t ts IH]; intros p; cbn [parse_loop]; [apply tied_ok|]. apply tied_bind; [apply token_moved|]. intros q. exact (IH (set_last (ttype t) q)).
  Qed.
  Lemma parse_moved' fuel resolve src : parse w fuel o resolve src = parse w' fuel o' resolve src.
  Proof.
    unfold parse, parse_with. destruct (scan_stream src []) as [ts e]. cbn [fst snd].
    assert (tied (let* p := parse_loop w fuel ts (set_asg new_asg (new_parser o resolve)) in let* _ := e in let* p := add_inlines_to_block_stack p in flush_to 0 p)
      (let* p := parse_loop w' fuel ts (set_asg new_asg (new_parser o' resolve)) in let* _ := e in let* p := add_inlines_to_block_stack p in flush_to 0 p)) as (out & E & E').
    { apply tied_bind; [exact (tokens_moved fuel ts (set_asg new_asg (new_parser [] resolve)))|]. intros q. apply tied_same. intros _.
      apply tied_bind; [exact (tied_blind _ q b_inlines)|]. intros q2. exact (tied_blind _ q2 (b_flush_to 0)). }
    assert (forall r : result pstate, (let* (a, _) := (let* p := r in let* _ := e in let* p := add_inlines_to_block_stack p in let* p := flush_to 0 p in Ok (asg_consolidate (p_asg p), p)) in Ok a)
      = let* p := (let* p := r in let* _ := e in let* p := add_inlines_to_block_stack p in flush_to 0 p) in Ok (asg_consolidate (p_asg p))) as Q.
    { clear. intros r. destruct r as [p| | | |]; cbn [bind]; try reflexivity. destruct e; cbn [bind]; try reflexivity.
      destruct (add_inlines_to_block_stack p) as [p0| | | |]; cbn [bind]; try reflexivity. destruct (flush_to 0 p0); reflexivity. }
    rewrite !Q, E, E'. now destruct out.
  Qed.
End Moved.
