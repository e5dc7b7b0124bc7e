(** * Sources without include directives
    A parser that does not look for the files of pictures asks nothing about files. *)
From Verif Require Import Base World Location Token Scanner Meta Inline Block Asg Parser Html Json Docx Cli SpecScan SpecResolve TreeInd ScanStart RunProofs ResolveProofs.
Local Open Scope char_scope.
Local Open Scope nat_scope.

Lemma slice_rest (s c : bytes) : slice s 1 (List.length s) = (Ok c : result bytes) -> exists x, s = x ++ c.
Proof.
  unfold slice. destruct (_ && _); [|discriminate]. intros E. injection E as <-. exists (firstn 1 s). rewrite (firstn_all2 (skipn 1 s)); [now rewrite firstn_skipn|].
  rewrite skipn_length. lia.
Qed.
Section Unread.
  Variables (w : world) (canon read : bytes -> option bytes).
  Notation w' := (with_files w canon read).
  Definition unread (t : token) : Prop := ttype t <> TInclude /\ (ttype t = TTableCell -> token_text t = lexeme t /\ ~ occurs (bs "include::") (lexeme t)).
  Lemma resolve_kept (f : pstate -> result pstate) p q : blindA w setr f -> p_resolve p = false -> f p = Ok q -> p_resolve q = false.
  Proof.
    intros B R E. destruct p. cbn in R. subst. match type of E with f (mkP ?o ?l ?h ?at_ ?bs_ ?is_ ?fi ?ti ?me ?ol ?ot ?off ?il ?isp ?ic ?fn ?pn ?cp ?da _ ?a) = _ =>
      destruct (B o l h at_ bs_ is_ fi ti me ol ot off il isp ic fn pn cp da a) as (out & F & _) end.
    rewrite E in F. destruct out; try discriminate F. injection F as ->. reflexivity.
  Qed.
  Lemma dispatch_unread t p : p_resolve p = false -> dispatch w t p = dispatch w' t p.
  Proof.
    intros R. unfold dispatch. destruct (ttype t); try reflexivity.
    unfold parse_block_image. change (target_and_attrs_from_token w' t) with (target_and_attrs_from_token w t).
    destruct (target_and_attrs_from_token w t) as [[target m]| | | |]; cbn [bind]; try reflexivity.
    unfold check_target. rewrite R. reflexivity.
  Qed.
  Lemma scanned_unread src files : ~ occurs (bs "include::") src -> Forall unread (fst (scan_stream src files)).
  Proof.
    intros N. apply Forall_forall. intros t T. split.
    - intros E. destruct (stream_openers src files t [bs "include::"] T) as (p & [<-|[]] & O); [now rewrite E|]. exact (N O).
    - intros E. split; [now apply (cell_lexeme src files)|]. intros (a & b & O). destruct (stream_lexeme src files t T) as (x & y & S).
      apply N. exists (x ++ a), (b ++ y). rewrite S, O, <- !app_assoc. reflexivity.
  Qed.
  Lemma header_kept t p q : p_resolve p = false ->
    match p_header p with Some _ => if can_be_in_document_header t then Ok p else check_and_move_header w p | None => Ok p end = Ok q -> p_resolve q = false.
  Proof.
    intros R Q. destruct (p_header p); [|injection Q as <-; exact R]. destruct (can_be_in_document_header t); [injection Q as <-; exact R|].
    exact (resolve_kept _ _ _ (b_header w) R Q).
  Qed.
  Lemma moved_unread t line col : unread t -> unread (update_token_loc_offsets_by t line col).
  Proof. destruct t. exact (fun H => H). Qed.
  Lemma cells_unread fuel line col ts : (forall t p, unread t -> p_resolve p = false -> token_into w fuel t p = token_into w' fuel t p) ->
    Forall unread ts -> forall p, p_resolve p = false -> cell_loop (token_into w fuel) line col ts p = cell_loop (token_into w' fuel) line col ts p.
  Proof.
    intros IH F. induction F as [|t ts U F IHts]; intros p R; [reflexivity|]. cbn [cell_loop]. rewrite <- (IH _ p (moved_unread t line col U) R).
    destruct (token_into w fuel (update_token_loc_offsets_by t line col) p) as [q| | | |] eqn:Q; cbn [bind]; [|reflexivity..]. apply IHts.
    exact (resolve_kept _ _ _ (b_token w fuel _) R Q).
  Qed.
  Lemma token_unread fuel : forall t p, unread t -> p_resolve p = false -> token_into w fuel t p = token_into w' fuel t p.
  Proof.
    induction fuel as [|fuel IH]; intros t p (NI & C) R; cbn [token_into].
    - change (check_and_move_header w' p) with (check_and_move_header w p).
      destruct (match p_header p with Some _ => _ | None => _ end) as [q| | | |] eqn:Q; cbn [bind]; [|reflexivity..].
      apply header_kept in Q; [|exact R]. destruct (pre_dispatch t q); [reflexivity|reflexivity|]. pose proof (dispatch_unread t q Q) as D.
      destruct (ttype t); lazymatch goal with |- Hang = Hang => reflexivity | _ => exact D end.
    - change (check_and_move_header w' p) with (check_and_move_header w p).
      destruct (match p_header p with Some _ => _ | None => _ end) as [q| | | |] eqn:Q; cbn [bind]; [|reflexivity..].
      apply header_kept in Q; [|exact R]. destruct (pre_dispatch t q); [reflexivity|reflexivity|]. pose proof (dispatch_unread t q Q) as D.
      destruct (ttype t) eqn:T; lazymatch goal with |- dispatch _ _ _ = _ => exact D | _ => clear D end; [|congruence]. destruct (C eq_refl) as (E & N). unfold parse_table_cell. rewrite E.
      destruct (slice (lexeme t) 1 (List.length (lexeme t))) as [contents| | | |] eqn:S; cbn [bind]; [|reflexivity..].
      destruct (push_block_to_stack (new_cell t) q) as [q1| | | |] eqn:Q1; cbn [bind]; [|reflexivity..].
      apply (resolve_kept _ _ _ (b_push w _) Q) in Q1.
      assert (~ occurs (bs "include::") contents) as N'.
      { intros (a & b & O). apply N. destruct (slice_rest _ _ S) as (x & X). exists (x ++ a), b. rewrite X, O, <- app_assoc. reflexivity. }
      pose proof (scanned_unread contents [] N') as F. destruct (scan_stream contents []) as [ts e]. cbn [fst] in F.
      rewrite (cells_unread fuel (tline t) (startcol t) ts IH F); [reflexivity | exact Q1].
  Qed.
  Lemma loop_unread fuel ts : Forall unread ts -> forall p, p_resolve p = false -> parse_loop w fuel ts p = parse_loop w' fuel ts p.
  Proof.
    induction 1 as [|t ts U F IH]; intros p R; [reflexivity|]. cbn [parse_loop]. rewrite <- (token_unread fuel t p U R).
    destruct (token_into w fuel t p) as [q| | | |] eqn:Q; cbn [bind]; [|reflexivity..]. apply IH.
    exact (resolve_kept _ _ _ (b_token w fuel t) R Q).
  Qed.
  Lemma parse_unread fuel origin src : ~ occurs (bs "include::") src -> parse w fuel origin false src = parse w' fuel origin false src.
  Proof.
    intros N. unfold parse, parse_with. rewrite (loop_unread fuel _ (scanned_unread src [] N)) by reflexivity. reflexivity.
  Qed.
End Unread.
Lemma parse_as_found w fuel origin src : ~ occurs (bs "include::") src -> parse w fuel origin false src = parse (all_found w) fuel origin true src.
Proof.
  intros N. rewrite (found_parse (all_found w)) by discriminate. now apply parse_unread.
Qed.
Lemma html_unread w canon read b : forall skip, html_block w skip b = html_block (with_files w canon read) skip b.
Proof.
  induction b as [h m k loc K] using block_ind'. intros skip.
  assert (forall sk, (fix go (skip : bool) (l : list block) : result (list piece) := match l with [] => Ok [] | x :: r => let* p := html_block w skip x in let* q := go skip r in Ok (p ++ q) end) sk k
    = (fix go (skip : bool) (l : list block) : result (list piece) := match l with [] => Ok [] | x :: r => let* p := html_block (with_files w canon read) skip x in let* q := go skip r in Ok (p ++ q) end) sk k) as G.
  { intros sk. induction K as [|x r X K IH]; [reflexivity|]. rewrite IH, X. reflexivity. }
  destruct h; cbn [html_block]; repeat (match goal with |- context [match ?x with _ => _ end] => is_var x; destruct x end); rewrite ?G; reflexivity.
Qed.
Lemma page_unread w canon read g : render_htmlbook w g = render_htmlbook (with_files w canon read) g.
Proof.
  unfold render_htmlbook, html_document. assert (html_blocks w (a_blocks g) = html_blocks (with_files w canon read) (a_blocks g)) as ->; [|reflexivity].
  induction (a_blocks g) as [|x r IH]; [reflexivity|]. cbn [html_blocks]. now rewrite IH, (html_unread w canon read).
Qed.
Lemma run_as_found w fuel e c src : c_backend c <> BDocx -> read_input w e c = Ok src -> ~ occurs (bs "include::") src ->
  run w fuel e (unresolved c) = run (all_found w) fuel e (resolved c).
Proof.
  intros B I N. unfold run. change (read_input w e (unresolved c)) with (read_input w e c). change (read_input (all_found w) e (resolved c)) with (read_input w e c).
  rewrite I. cbn [lift unresolved resolved c_unresolved c_file negb]. rewrite (parse_as_found w fuel _ src N).
  destruct (parse (all_found w) fuel (origin_directory e (c_file c)) true src) as [g| | | |]; cbn [lift]; try reflexivity.
  cbn [c_backend c_count unresolved resolved]. unfold all_found in *. destruct (c_backend c); [rewrite <- page_unread; reflexivity|reflexivity|congruence].
Qed.
