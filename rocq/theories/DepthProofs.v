(** * More depth changes nothing but giving up *)
From Verif Require Import Base World Location Token Scanner Meta Inline Block Asg Parser Cli SpecScan SpecDepth ScanStart PanicProofs UnreadProofs.
Local Open Scope char_scope.
Local Open Scope nat_scope.

Lemma up_refl {E A} (r : res E A) : gives_up_or r r.
Proof. now right. Qed.
Lemma up_bind {E A B} (r r' : res E A) (k k' : A -> res E B) : gives_up_or r r' -> (forall x, gives_up_or (k x) (k' x)) -> gives_up_or (bind r k) (bind r' k').
Proof. intros [->| ->] H; [now left|]. destruct r' as [x| | | |]; cbn [bind]; [apply H|apply up_refl..]. Qed.
Lemma up_same {E A B} (r : res E A) (k k' : A -> res E B) : (forall x, gives_up_or (k x) (k' x)) -> gives_up_or (bind r k) (bind r k').
Proof. intros H. apply up_bind; [apply up_refl|exact H]. Qed.
Section Depth.
  Variable w : world.
  Section Rec.
    Variables rec rec' : token -> pstate -> result pstate.
    Hypothesis R : forall t p, gives_up_or (rec t p) (rec' t p).
    Lemma up_include_loop s ts : forall st p, gives_up_or (include_loop rec s st ts p) (include_loop rec' s st ts p).
    Proof.
      induction ts as [|t ts IH]; intros st p; cbn [include_loop]; [apply up_refl|].
      apply up_same. intros [keep st']. destruct keep; [|apply IH]. apply up_bind; [|intros q; apply IH].
      destruct (inc_adoc s); [|apply up_refl]. apply up_bind; [apply R|intros q; apply up_refl].
    Qed.
    Lemma up_include t p : gives_up_or (parse_include w rec t p) (parse_include w rec' t p).
    Proof.
      unfold parse_include. apply up_same. intros [target m]. apply up_same. intros q. apply up_same. intros spec. apply up_same. intros path. cbv zeta.
      destruct (w_read w path) as [content|]; [|apply up_refl]. destruct (scan_stream content _) as [ts e].
      apply up_bind; [apply up_include_loop|intros q'; apply up_refl].
    Qed.
    Lemma up_cell_loop line col ts : forall p, gives_up_or (cell_loop rec line col ts p) (cell_loop rec' line col ts p).
    Proof. induction ts as [|t ts IH]; intros p; cbn [cell_loop]; [apply up_refl|]. apply up_bind; [apply R|exact IH]. Qed.
    Lemma up_cell t p : gives_up_or (parse_table_cell rec t p) (parse_table_cell rec' t p).
    Proof.
      unfold parse_table_cell. cbv zeta. apply up_same. intros contents. apply up_same. intros q. destruct (scan_stream contents []) as [ts e].
      apply up_bind; [apply up_cell_loop|intros q'; apply up_refl].
    Qed.
  End Rec.
  Lemma up_token f : forall g t p, f <= g -> gives_up_or (token_into w f t p) (token_into w g t p).
  Proof.
    induction f as [|f IH]; intros [|g] t p L; try lia; [apply up_refl| |].
    - cbn [token_into]. apply up_same. intros q. destruct (pre_dispatch t q); [apply up_refl|apply up_refl|].
      destruct (ttype t); lazymatch goal with |- gives_up_or Hang _ => now left | _ => apply up_refl end.
    - cbn [token_into]. apply up_same. intros q. destruct (pre_dispatch t q); [apply up_refl|apply up_refl|].
      destruct (ttype t); lazymatch goal with
        | |- gives_up_or (parse_include _ _ _ _) _ => apply up_include; intros; apply IH; lia
        | |- gives_up_or (parse_table_cell _ _ _) _ => apply up_cell; intros; apply IH; lia
        | _ => apply up_refl end.
  Qed.
  Lemma up_loop f g ts : f <= g -> forall p, gives_up_or (parse_loop w f ts p) (parse_loop w g ts p).
  Proof. intros L. induction ts as [|t ts IH]; intros p; cbn [parse_loop]; [apply up_refl|]. apply up_bind; [now apply up_token|intros q; apply IH]. Qed.
  Lemma up_parse f g origin resolve src : f <= g -> gives_up_or (parse w f origin resolve src) (parse w g origin resolve src).
  Proof.
    intros L. unfold parse, parse_with. apply up_bind; [|intros x; apply up_refl]. apply up_bind; [now apply up_loop|intros q; apply up_refl].
  Qed.
  Lemma same_depth f g origin resolve src : parse w f origin resolve src <> Hang -> parse w g origin resolve src <> Hang ->
    parse w f origin resolve src = parse w g origin resolve src.
  Proof.
    intros F G. destruct (Nat.le_ge_cases f g) as [L|L]; destruct (up_parse _ _ origin resolve src L) as [E|E]; congruence.
  Qed.
  Lemma flat_depth f g origin resolve src : ~ occurs (bs "include::") src -> ~ occurs (bs "|") src ->
    parse w f origin resolve src = parse w g origin resolve src.
  Proof.
    intros NI NC. assert (Forall (fun t => ttype t <> TInclude /\ ttype t <> TTableCell) (fst (scan_stream src []))) as F.
    { apply Forall_forall. intros t T. split; intros E.
      - destruct (stream_openers src [] t [bs "include::"] T) as (p & [<-|[]] & O); [now rewrite E|]. exact (NI O).
      - destruct (stream_openers src [] t [bs "|"] T) as (p & [<-|[]] & O); [now rewrite E|]. exact (NC O). }
    unfold parse, parse_with. assert (forall p, parse_loop w f (fst (scan_stream src [])) p = parse_loop w g (fst (scan_stream src [])) p) as ->; [|reflexivity].
    induction F as [|t ts (A & B) F IH]; intros p; [reflexivity|]. cbn [parse_loop]. rewrite !token_into_eq by assumption.
    lazymatch goal with |- bind ?m _ = _ => destruct m as [q| | | |] end; cbn [bind]; [apply IH|reflexivity..].
  Qed.
  Lemma cells_enough f g line col ts : (forall t p, In t ts -> token_into w f (update_token_loc_offsets_by t line col) p = token_into w g (update_token_loc_offsets_by t line col) p) ->
    forall p, cell_loop (token_into w f) line col ts p = cell_loop (token_into w g) line col ts p.
  Proof.
    induction ts as [|t ts IH]; intros H p; [reflexivity|]. cbn [cell_loop]. rewrite (H t p) by now left.
    destruct (token_into w g _ p) as [q| | | |]; cbn [bind]; [|reflexivity..]. apply IH. intros t' q' T. apply H. now right.
  Qed.
  Lemma slice_short (s c : bytes) : slice s 1 (List.length s) = (Ok c : result bytes) -> List.length c < List.length s /\ exists x, s = x ++ c.
  Proof.
    intros S. split; [|now apply slice_rest]. unfold slice in S. destruct s as [|x s]; [discriminate S|]. destruct (_ && _); [|discriminate]. injection S as <-.
    rewrite firstn_length. cbn [skipn List.length]. lia.
  Qed.
  Lemma occurs_short a s : occurs a s -> List.length a <= List.length s.
  Proof. intros (x & y & ->). rewrite !app_length. lia. Qed.
  Lemma token_enough n : forall f g t p, n <= f -> n <= g -> unread t -> (ttype t = TTableCell -> List.length (lexeme t) < n) ->
    token_into w f t p = token_into w g t p.
  Proof.
    induction n as [n IH] using lt_wf_ind. intros f g t p Lf Lg (NI & C) K. destruct (tt_eqb (ttype t) TTableCell) eqn:T.
    - assert (ttype t = TTableCell) as T' by (destruct (ttype t); try discriminate T; reflexivity). specialize (K T'). destruct (C T') as (E & N).
      destruct f as [|f]; [lia|]. destruct g as [|g]; [lia|]. cbn [token_into]. rewrite T'.
      lazymatch goal with |- bind ?m _ = _ => destruct m as [q| | | |] end; cbn [bind]; [|reflexivity..].
      destruct (pre_dispatch t q); [reflexivity|reflexivity|]. unfold parse_table_cell. cbv zeta. rewrite E.
      destruct (slice (lexeme t) 1 (List.length (lexeme t))) as [contents| | | |] eqn:S; cbn [bind]; [|reflexivity..]. apply slice_short in S as (L & x & X).
      destruct (push_block_to_stack (new_cell t) q) as [q1| | | |]; cbn [bind]; [|reflexivity..].
      assert (~ occurs (bs "include::") contents) as N' by (intros (a & b & O); apply N; exists (x ++ a), b; rewrite X, O, <- app_assoc; reflexivity).
      pose proof (scanned_unread contents [] N') as F. pose proof (stream_lexeme contents []) as W. destruct (scan_stream contents []) as [ts e]. cbn [fst] in *.
      rewrite (cells_enough f g (tline t) (startcol t) ts); [reflexivity|]. intros u r U. apply (IH (List.length (lexeme t))); [lia|lia|lia| |].
      + apply moved_unread. rewrite Forall_forall in F. now apply F.
      + intros _. apply W in U. apply occurs_short in U. destruct u. cbn in *. lia.
    - assert (ttype t <> TTableCell) as T' by (intros T'; rewrite T' in T; discriminate T). rewrite !token_into_eq by assumption. reflexivity.
  Qed.
  Lemma enough_depth f origin resolve src : ~ occurs (bs "include::") src -> List.length src < f ->
    parse w f origin resolve src = parse w (S (List.length src)) origin resolve src.
  Proof.
    intros N L. pose proof (scanned_unread src [] N) as F. pose proof (stream_lexeme src []) as W. unfold parse, parse_with.
    assert (forall p, parse_loop w f (fst (scan_stream src [])) p = parse_loop w (S (List.length src)) (fst (scan_stream src [])) p) as ->; [|reflexivity].
    rewrite Forall_forall in F. revert F W. generalize (fst (scan_stream src [])) as ts. intros ts F W.
    induction ts as [|t ts IH]; intros p; [reflexivity|]. cbn [parse_loop].
    rewrite (token_enough (S (List.length src)) f (S (List.length src)) t p); [|lia|lia|apply F; now left|intros _; specialize (W t (or_introl eq_refl)); apply occurs_short in W; lia].
    destruct (token_into w (S (List.length src)) t p) as [q| | | |]; cbn [bind]; [|reflexivity..]. apply IH; intros u U; [apply F|apply W]; now right.
  Qed.
  Lemma up_run f g e c : f <= g -> run w f e c = ([], Hang) \/ run w f e c = run w g e c.
  Proof.
    intros L. unfold run. destruct (read_input w e c) as [src| | | |]; cbn [lift]; auto.
    destruct (up_parse f g (origin_directory e (c_file c)) (negb (c_unresolved c)) src L) as [E|E]; rewrite E; [left; reflexivity|right; reflexivity].
  Qed.
End Depth.
