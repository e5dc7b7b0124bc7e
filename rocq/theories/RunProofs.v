(** * Ending of the parser: proofs for C24 and C38 *)
From Verif Require Import Base World Location Token Scanner Meta Inline Block Asg Parser
  SpecScan SpecStart SpecInclude SpecRun ScanLemmas ScanFail2 ScanStart GraphLemmas Runs.
Local Open Scope char_scope.
Local Open Scope nat_scope.

Scheme reads_min := Minimality for reads Sort Prop
  with opens_min := Minimality for opens Sort Prop.

(** ** Streams *)
Lemma stream_hang f : forall sc, snd (stream_from f sc) = Hang -> collect f sc = Hang.
Proof.
  induction f as [|f IH]; intros sc H; [reflexivity|]. cbn [stream_from collect] in *.
  destruct (next sc) as [[[t|] sc']| | | |]; cbn in *; try discriminate; try reflexivity.
  destruct (stream_from f sc') as [ts e] eqn:E. cbn in H. rewrite (IH sc'); [reflexivity|now rewrite E].
Qed.
Lemma stream_exit f : forall sc, snd (stream_from f sc) <> Exit.
Proof.
  induction f as [|f IH]; intros sc; [discriminate|]. cbn [stream_from]. pose proof (next_no_exit sc) as N.
  destruct (next sc) as [[[t|] sc']| | | |]; cbn; try discriminate; [|congruence].
  specialize (IH sc'). destruct (stream_from f sc'). exact IH.
Qed.
Lemma scan_exit src files : snd (scan_stream src files) <> Exit.
Proof. apply stream_exit. Qed.
Lemma scan_hang src files : scan_with src files <> Hang -> snd (scan_stream src files) <> Hang.
Proof. intros H K. apply H. now apply stream_hang. Qed.
Lemma sane_cases {E A} (hang exit : bool) (m : res E A) : (m = Hang -> hang = true) -> (m = Exit -> exit = true) -> sane hang exit m.
Proof. destruct m; cbn; auto. Qed.

(** ** What is read lies in an opened text *)
Section Inside.
  Variable w : world.
  Variable origin src : bytes.
  Notation reads := (reads w origin src). Notation opens := (opens w origin src).
  Lemma cell_lexeme content files t : In t (fst (scan_stream content files)) -> ttype t = TTableCell -> token_text t = lexeme t.
  Proof. intros H T. apply (stream_text _ _ _ H); rewrite T; [discriminate|cbn; intuition discriminate]. Qed.
  Lemma reads_inside chain t : reads chain t -> exists content, opens chain content
    /\ (ttype t = TTableCell -> token_text t = lexeme t) /\ occurs (lexeme t) content
    /\ forall l, openers (ttype t) = Some l -> exists p, In p l /\ occurs p content.
  Proof.
    intros H. apply (reads_min w origin src
      (fun chain t => exists content, opens chain content
        /\ (ttype t = TTableCell -> token_text t = lexeme t) /\ occurs (lexeme t) content
        /\ forall l, openers (ttype t) = Some l -> exists p, In p l /\ occurs p content)
      (fun _ _ => True)) in H; auto; clear chain t H.
    - intros chain content t O _ T. exists content. split; [exact O|]. split; [|split].
      + intros E. now apply (cell_lexeme content chain).
      + eapply stream_lexeme, T.
      + intros l L. eapply stream_openers; eassumption.
    - intros chain t contents x _ (content & O & L & S & _) T C X. exists content. split; [exact O|].
      assert (occurs contents content) as OC.
      { eapply occurs_trans; [eapply slice_occurs, C|]. rewrite (L T). exact S. }
      split; [|split].
      + intros E. exact (cell_lexeme contents [] x X E).
      + eapply occurs_trans; [exact (stream_lexeme contents [] x X)|exact OC].
      + intros l' L'. destruct (stream_openers contents [] x l' X L') as (p & P & Q). exists p. split; [exact P|]. now apply (occurs_trans p contents content).
  Qed.
End Inside.

(** ** C38 *)
Section Exit.
  Variable w : world.
  Variable origin src : bytes.
  Lemma never_exits fuel resolve :
    (forall path, included w origin src path -> w_read w path <> None) ->
    (forall chain content, opens w origin src chain content -> ~ occurs (bs "|===") content) ->
    parse w fuel origin resolve src <> Exit.
  Proof.
    intros R T. assert (sane true false (parse w fuel origin resolve src)) as S.
    { apply (r_parse w true false (fun _ fs t => reads w origin src fs t) origin).
      - intros f fs t O E. exfalso. destruct (reads_inside _ _ _ _ _ O) as (content & C & _ & _ & H). rewrite E in H.
        destruct (H _ eq_refl) as (p & [<-|[]] & P). exact (T _ _ C P).
      - reflexivity.
      - intros f fs t target m path O E A C N. exfalso. apply (R path); [|exact N]. now exists fs, t, target, m.
      - intros f fs t target m path content O E A C N. split.
        + apply Forall_forall. intros x X. eapply reads_scan; [eapply opens_include; eassumption|exact X].
        + apply sane_cases; [reflexivity|]. intros K. now apply scan_exit in K.
      - intros f fs t contents O E C. split.
        + apply Forall_forall. intros x X. eapply reads_cell; eassumption.
        + apply sane_cases; [reflexivity|]. intros K. now apply scan_exit in K.
      - apply Forall_forall. intros x X. eapply reads_scan; [constructor|exact X].
      - apply sane_cases; [reflexivity|]. intros K. now apply scan_exit in K. }
    intros E. rewrite E in S. discriminate.
  Qed.
End Exit.

(** ** C24 *)
Section Ends.
  Variable w : world.
  Variable origin src : bytes.
  Notation reads := (reads w origin src). Notation opens := (opens w origin src).
  (** [f] levels are enough for the token *)
  Fixpoint ready (f : nat) (fs : list bytes) (t : token) : Prop :=
    match f with
    | O => ttype t <> TInclude /\ ttype t <> TTableCell
    | S f =>
        (ttype t = TInclude -> forall target m path content, target_and_attrs_from_token w t = Ok (target, m) ->
           w_canon w (resolve_path origin fs target) = Some path -> w_read w path = Some content ->
           Forall (ready f (fs ++ [target])) (fst (scan_stream content (fs ++ [target]))))
        /\ (ttype t = TTableCell -> forall contents, slice (token_text t) 1 (List.length (token_text t)) = (Ok contents : result bytes) ->
           Forall (fun x => ready f fs (update_token_loc_offsets_by x (tline t) (startcol t))) (fst (scan_stream contents [])))
    end.
  Lemma ready_more f : forall g fs t, f <= g -> ready f fs t -> ready g fs t.
  Proof.
    induction f as [|f IH]; intros [|g] fs t L H; try lia; try exact H.
    - destruct H as [H1 H2]. split; intros; congruence.
    - destruct H as [H1 H2]. split.
      + intros E target m path content A B C. eapply Forall_impl; [|eapply H1; eassumption]. intros x. apply IH. lia.
      + intros E contents A. eapply Forall_impl; [|eapply H2; eassumption]. intros x. apply IH. lia.
  Qed.
  Lemma all_ready (P : nat -> token -> Prop) (l : list token) : (forall f g t, f <= g -> P f t -> P g t) ->
    (forall t, In t l -> exists f, P f t) -> exists f, Forall (P f) l.
  Proof.
    intros M. induction l as [|t l IH]; intros H; [exists 0; constructor|]. destruct (H t (or_introl eq_refl)) as [f F].
    destruct IH as [g G]; [intros x X; apply H; now right|]. exists (max f g). constructor.
    - eapply M; [|exact F]. lia.
    - eapply Forall_impl; [|exact G]. intros x. apply M. lia.
  Qed.
  Lemma occurs_length a s : occurs a s -> List.length a <= List.length s.
  Proof. intros (x & y & ->). rewrite !app_length. lia. Qed.
  Variable n : nat.
  Hypothesis within : chains_within w origin src n.
  Lemma reads_ready d : forall k fs t, n - List.length fs <= d -> reads fs t ->
    (ttype t = TTableCell -> token_text t = lexeme t) -> List.length (lexeme t) <= k -> exists f, ready f fs t.
  Proof.
    induction d as [d IHd] using lt_wf_ind. induction k as [k IHk] using lt_wf_ind. intros fs t D R L K.
    destruct (tt_eqb (ttype t) TInclude) eqn:TI.
    - assert (ttype t = TInclude) as E by (destruct (ttype t); try discriminate; reflexivity).
      destruct (target_and_attrs_from_token w t) as [[target m]| | | |] eqn:A;
        [|exists 1; split; intros; congruence|exists 1; split; intros; congruence|exists 1; split; intros; congruence|exists 1; split; intros; congruence].
      destruct (w_canon w (resolve_path origin fs target)) as [path|] eqn:C; [|exists 1; split; [intros _ ? ? ? ? A1; rewrite A in A1; injection A1 as <- <-; congruence|intros; congruence]].
      destruct (w_read w path) as [content|] eqn:N; [|exists 1; split; [intros _ ? ? ? ? A1; rewrite A in A1; injection A1 as <- <-; intros C1; rewrite C in C1; injection C1 as <-; congruence|intros; congruence]].
      assert (opens (fs ++ [target]) content) as O by (eapply opens_include; eassumption).
      assert (List.length (fs ++ [target]) <= n) as LN by (eapply within, O). rewrite app_length in LN. cbn in LN.
      destruct (all_ready (fun f x => ready f (fs ++ [target]) x) (fst (scan_stream content (fs ++ [target])))) as [f F].
      + intros f g x. apply ready_more.
      + intros x X. eapply (IHd (d - 1)); [lia| |eapply reads_scan; eassumption|now apply (cell_lexeme content (fs ++ [target]))|reflexivity].
        rewrite app_length. cbn. lia.
      + exists (S f). split; [|intros; congruence]. intros _ target' m' path' content' A' C' N'. rewrite A in A'. injection A' as <- <-.
        rewrite C in C'. injection C' as <-. rewrite N in N'. injection N' as <-. exact F.
    - assert (ttype t <> TInclude) as NI by (intros E; rewrite E in TI; discriminate).
      destruct (tt_eqb (ttype t) TTableCell) eqn:TC; [|exists 0; split; [exact NI|intros E; rewrite E in TC; discriminate]].
      assert (ttype t = TTableCell) as E by (destruct (ttype t); try discriminate; reflexivity).
      destruct (slice (token_text t) 1 (List.length (token_text t)) : result bytes) as [contents| | | |] eqn:S;
        [|exists 1; split; intros; congruence|exists 1; split; intros; congruence|exists 1; split; intros; congruence|exists 1; split; intros; congruence].
      assert (List.length contents < k) as LC.
      { rewrite (L E) in S. apply slice_ok in S as (? & ? & ? & ? & ->). rewrite firstn_length, skipn_length. lia. }
      destruct (all_ready (fun f x => ready f fs (update_token_loc_offsets_by x (tline t) (startcol t))) (fst (scan_stream contents []))) as [f F].
      + intros f g x. apply ready_more.
      + intros x X. apply (IHk (List.length contents)); [exact LC|exact D|eapply reads_cell; eassumption| |].
        * exact (cell_lexeme contents [] x X).
        * apply occurs_length, (stream_lexeme contents [] x X).
      + exists (Datatypes.S f). split; [intros; congruence|]. intros _ contents' C. rewrite S in C. injection C as <-. exact F.
  Qed.
  Lemma ends_ resolve : all_scanned w origin src -> exists least, forall fuel, least <= fuel -> parse w fuel origin resolve src <> Hang.
  Proof.
    intros [A1 A2]. destruct (all_ready (fun f x => ready f [] x) (fst (scan_stream src []))) as [f F].
    - intros f g x. apply ready_more.
    - intros x X. eapply (reads_ready n); [cbn; lia|eapply reads_scan; [constructor|exact X]|now apply (cell_lexeme src [])|reflexivity].
    - exists f. intros fuel L. assert (sane false true (parse w fuel origin resolve src)) as S.
      { apply (r_parse w false true (fun f fs t => reads fs t /\ ready f fs t) origin).
        - reflexivity.
        - intros fs t [_ [H1 H2]] [E|E]; congruence.
        - reflexivity.
        - intros g fs t target m path content [R H] E TA C N.
          assert (opens (fs ++ [target]) content) as O by (eapply opens_include; eassumption). split.
          + apply Forall_forall. intros x X. split; [eapply reads_scan; eassumption|]. destruct H as [H _]. specialize (H E _ _ _ _ TA C N). rewrite Forall_forall in H. now apply H.
          + apply sane_cases; [|reflexivity]. intros K. exfalso. revert K. apply scan_hang. now apply A1.
        - intros g fs t contents [R H] E C. split.
          + apply Forall_forall. intros x X. split; [eapply reads_cell; eassumption|]. destruct H as [_ H]. specialize (H E _ C). rewrite Forall_forall in H. now apply H.
          + apply sane_cases; [|reflexivity]. intros K. exfalso. revert K. apply scan_hang, A2. now exists fs, t.
        - apply Forall_forall. intros x X. split; [eapply reads_scan; [constructor|exact X]|]. rewrite Forall_forall in F. eapply ready_more; [exact L|]. now apply F.
        - apply sane_cases; [|reflexivity]. intros K. exfalso. revert K. apply scan_hang, A1. constructor. }
      intros E. rewrite E in S. discriminate.
  Qed.
End Ends.
Lemma ends w origin src n resolve : chains_within w origin src n -> all_scanned w origin src ->
  exists least, forall fuel, least <= fuel -> parse w fuel origin resolve src <> Hang.
Proof. intros H. now apply (ends_ w origin src n). Qed.

(** sources without includes and cells *)
Lemma flat_ends w fuel origin resolve src : ~ occurs (bs "include::") src -> ~ occurs (bs "|") src -> scan_with src [] <> Hang ->
  parse w fuel origin resolve src <> Hang /\ parse w fuel origin resolve src <> Exit.
Proof.
  intros NI NC S. assert (sane false false (parse w fuel origin resolve src)) as H.
  { assert (forall t, In t (fst (scan_stream src [])) -> ttype t <> TInclude /\ ttype t <> TTableCell /\ ttype t <> TTable) as N.
    { intros t T. repeat split; intros E.
      - destruct (stream_openers src [] t [bs "include::"] T) as (p & [<-|[]] & O); [now rewrite E|]. exact (NI O).
      - destruct (stream_openers src [] t [bs "|"] T) as (p & [<-|[]] & O); [now rewrite E|]. exact (NC O).
      - destruct (stream_openers src [] t [bs "|==="] T) as (p & [<-|[]] & (x & y & O)); [now rewrite E|]. apply NC. exists x, (bs "===" ++ y). exact O. }
    apply (r_parse w false false (fun _ _ t => ttype t <> TInclude /\ ttype t <> TTableCell /\ ttype t <> TTable) origin).
    - intros f fs t (_ & _ & T) E. congruence.
    - intros fs t (A & B & _) [E|E]; congruence.
    - intros f fs t ? ? ? (A & _) E. congruence.
    - intros f fs t ? ? ? ? (A & _) E. congruence.
    - intros f fs t ? (_ & A & _) E. congruence.
    - apply Forall_forall. exact N.
    - apply sane_cases; intros K; exfalso; revert K; [now apply scan_hang|apply scan_exit]. }
  split; intros E; rewrite E in H; discriminate.
Qed.
Lemma tame_ends w fuel origin resolve src : tame src -> ~ occurs (bs "|") src ->
  parse w fuel origin resolve src <> Hang /\ parse w fuel origin resolve src <> Exit.
Proof.
  intros T. pose proof T as (_ & _ & N). apply Forall_inv in N. intros NC. apply flat_ends; [exact N|exact NC|].
  destruct (tame_never_fails src [] T) as [(ts & E)|(e & E)]; rewrite E; discriminate.
Qed.

(** includes one level deep, for examples *)
Lemma one_level w origin src : (forall path content, w_read w path = Some content -> ~ occurs (bs "include::") content) -> chains_within w origin src 1.
Proof.
  intros H chain content O. destruct O as [|chain t target m path content R T A C N]; [cbn; lia|]. rewrite app_length. cbn.
  destruct (reads_inside _ _ _ _ _ R) as (c & Oc & _ & _ & P). rewrite T in P. destruct (P _ eq_refl) as (p & [<-|[]] & Q).
  inversion Oc as [E|? ? ? ? path' ? ? ? ? ? N' E]; subst; [cbn; lia|]. exfalso. exact (H _ _ N' Q).
Qed.
Lemma opened w origin src chain content : opens w origin src chain content -> chain = [] /\ content = src \/ exists path, w_read w path = Some content.
Proof. intros [|]; [now left|]. right. eauto. Qed.
Lemma no_cells w origin src : ~ occurs (bs "|") src -> (forall path content, w_read w path = Some content -> ~ occurs (bs "|") content) ->
  forall s, ~ cell_text w origin src s.
Proof.
  intros N H s (chain & t & R & T & _). destruct (reads_inside _ _ _ _ _ R) as (c & Oc & _ & _ & P). rewrite T in P. destruct (P _ eq_refl) as (p & [<-|[]] & Q).
  destruct (opened _ _ _ _ _ Oc) as [[_ ->]|(path & E)]; [exact (N Q)|exact (H _ _ E Q)].
Qed.
Lemma not_occurs_one a s : occursb a s = false -> ~ occurs a s.
Proof. intros H K. apply occursb_complete in K. congruence. Qed.

(** a file that includes itself *)
Definition loop_file : bytes := bs "include::x.adoc[]" ++ [NL].
Definition loop_world : world := mkWorld (fun _ => Some (bs "x.adoc")) (fun _ => Some loop_file) true (fun _ => true) (fun _ => true) (fun s => s) (fun _ => None).
Definition loop_token (fs : list bytes) : token := mkTok TInclude (bs "include::x.adoc[]") (Some (bs "include::x.adoc[]")) 1 1 17 fs.
Lemma loop_scan fs : exists r e, scan_stream loop_file fs = (loop_token fs :: r, e).
Proof. unfold loop_token. eexists. eexists. vm_compute. reflexivity. Qed.
Lemma loop_hangs resolve origin f : forall fs,
  token_into loop_world f (loop_token fs) (set_files fs (set_asg new_asg (new_parser origin resolve))) = Hang.
Proof.
  induction f as [|f IH]; intros fs; [reflexivity|]. cbn [token_into]. change (p_header _) with (@None header). cbn [bind].
  change (pre_dispatch (loop_token fs) _) with PreGo. cbn [ttype loop_token]. unfold parse_include.
  replace (target_and_attrs_from_token loop_world (loop_token fs)) with (Ok (bs "x.adoc", None) : result (bytes * option metadata)) by reflexivity.
  cbn [bind]. replace (include_spec_of loop_world (bs "x.adoc") None) with (Ok (mkInc [] false [] true) : result include_spec) by reflexivity. cbn [bind].
  unfold resolve_target. cbn [w_canon loop_world bind w_read]. cbn [p_files set_files]. destruct (loop_scan (fs ++ [bs "x.adoc"])) as (r & e & E). rewrite E.
  cbn [include_loop]. replace (include_step _ _ _) with (Ok (true, ([] : list interval, None : option bytes)) : result (bool * (list interval * option bytes))) by reflexivity.
  cbn [bind inc_adoc]. change (set_files (fs ++ [bs "x.adoc"]) (set_files fs ?p)) with (set_files (fs ++ [bs "x.adoc"]) p).
  now rewrite IH.
Qed.
Lemma loop_never_ends fuel origin resolve : parse loop_world fuel origin resolve loop_file = Hang.
Proof.
  unfold parse, parse_with. destruct (loop_scan []) as (r & e & E). rewrite E. cbn [fst parse_loop].
  change (set_asg new_asg (new_parser origin resolve)) with (set_files [] (set_asg new_asg (new_parser origin resolve))). now rewrite loop_hangs.
Qed.
