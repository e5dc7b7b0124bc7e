(** * Checking that an article is well formed, for the examples *)
From Verif Require Import Base World Location Token Scanner Meta Inline Block Asg Parser SpecScan SpecDoc SpecArticle
  ScanFail2.
Local Open Scope char_scope.
Local Open Scope nat_scope.

Definition isnil {A} (l : list A) : bool := match l with [] => true | _ => false end.
Lemma isnil_spec A (l : list A) : negb (isnil l) = true -> l <> [].
Proof. now destruct l. Qed.
Lemma nil_isnil A (l : list A) : isnil l = true -> l = [].
Proof. now destruct l. Qed.

Definition low (s : bytes) : bool := forallb (fun c => (N_of_ascii c <=? 127)%N) s.
Lemma low_utf8 s : low s = true -> utf8 s.
Proof.
  induction s as [|c s IH]; [constructor|]. cbn -[N.leb N_of_ascii]. intros H. apply andb_prop in H as (A & B).
  apply utf8_1; [|auto]. split; [apply N.le_0_l|now apply N.leb_le].
Qed.
Lemma has_spec c s : existsb (Ascii.eqb c) s = false -> ~ In c s.
Proof.
  intros H K. assert (existsb (Ascii.eqb c) s = true) as E by (apply existsb_exists; exists c; split; [easy|apply Ascii.eqb_refl]).
  rewrite E in H. discriminate.
Qed.

Definition plainb (s : bytes) : bool := low s && forallb (fun a => negb (occursb a s)) markup.
Lemma plainb_spec s : plainb s = true -> plain s.
Proof. intros H. apply andb_prop in H as (A & B). split; [now apply low_utf8|now apply not_occurs_by]. Qed.

Fixpoint prefixb (p s : bytes) : bool :=
  match p, s with [], _ => true | a :: p, b :: s => Ascii.eqb a b && prefixb p s | _, _ => false end.
Lemma prefixb_app p r : prefixb p (p ++ r) = true.
Proof. induction p; cbn; [easy|]. now rewrite Ascii.eqb_refl. Qed.
Lemma prefixb_not p s : prefixb p s = false -> ~ exists r, s = p ++ r.
Proof. intros H (r & ->). rewrite prefixb_app in H. discriminate. Qed.
Definition startb (s : bytes) : bool := forallb (fun o => negb (prefixb o s)) line_markup.
Lemma startb_spec s : startb s = true -> plain_start s.
Proof.
  intros H. apply Forall_forall. intros o Ho. unfold startb in H. rewrite forallb_forall in H. specialize (H o Ho).
  apply prefixb_not. now apply negb_true_iff.
Qed.

Lemma forallb_Forall A (f : A -> bool) (P : A -> Prop) l : (forall x, f x = true -> P x) -> forallb f l = true -> Forall P l.
Proof. intros K H. apply Forall_forall. intros x Hx. rewrite forallb_forall in H. auto. Qed.

Definition nameb (s : bytes) : bool := forallb (fun c => is_ascii_alnum c || Ascii.eqb c "-") s.
Lemma nameb_spec s : nameb s = true -> Forall name_char s.
Proof.
  apply forallb_Forall. intros c H. apply orb_prop in H as [H|H]; [now left|right]. now apply Ascii.eqb_eq.
Qed.
Definition chunkb (c : chunk) : bool := plainb (fst c) && forallb (fun x => nameb (fst x) && plainb (snd x)) (snd c).
Lemma chunkb_spec c : chunkb c = true -> plain_chunk c.
Proof.
  intros H. apply andb_prop in H as (A & B). split; [now apply plainb_spec|].
  revert B. apply forallb_Forall. intros x H. apply andb_prop in H as (C & D). split; [now apply nameb_spec|now apply plainb_spec].
Qed.

Definition memberb (c : ascii) (l : bytes) : bool := existsb (Ascii.eqb c) l.
Lemma memberb_spec c l : memberb c l = true -> In c l.
Proof. intros H. apply existsb_exists in H as (x & Hx & E). apply Ascii.eqb_eq in E. now subst. Qed.
Definition opensb (o : option ascii) : bool := match o with None => true | Some c => memberb c [" "; "("] end.
Definition closesb (o : option ascii) : bool :=
  match o with None => true | Some c => memberb c [" "; "."; ","; ";"; ":"; ")"; "!"; "?"] end.
Lemma opensb_spec o : opensb o = true -> opens_after o.
Proof. destruct o; [apply memberb_spec|easy]. Qed.
Lemma closesb_spec o : closesb o = true -> closes_before o.
Proof. destruct o; [apply memberb_spec|easy]. Qed.
Definition huggedb (s : bytes) : bool :=
  match s with
  | [] => false
  | c :: _ => (is_ascii_alnum c || Ascii.eqb c "{") && (is_ascii_alnum (last s "000") || Ascii.eqb (last s "000") "}")
  end.
Lemma huggedb_spec s : huggedb s = true -> hugged s.
Proof.
  destruct s as [|c r] eqn:E; [discriminate|]. unfold huggedb. rewrite <- E. intros H. apply andb_prop in H as (A & B). split.
  - exists c, r. split; [easy|]. apply orb_prop in A as [A|A]; [now left|right; now apply Ascii.eqb_eq].
  - exists (last s "000"), (removelast s). split; [apply app_removelast_last; congruence|].
    apply orb_prop in B as [B|B]; [now left|right; now apply Ascii.eqb_eq].
Qed.
Definition constrainedb (k : mark) : bool := match k with Superscript | Subscript => false | _ => true end.
Lemma constrainedb_spec k : constrained k -> constrainedb k = true.
Proof. now destruct k. Qed.
Lemma constrained_of k : constrainedb k = true -> constrained k.
Proof. now destruct k. Qed.
Fixpoint marksb (prev : option ascii) (l : list (mark * chunk * chunk)) : bool :=
  match l with
  | [] => true
  | (k, inside, after) :: r =>
      chunkb inside && negb (isnil (spell_chunk inside)) && chunkb after
      && (negb (constrainedb k) || (opensb prev && huggedb (spell_chunk inside) && closesb (first_of (spell_chunk after))))
      && (isnil r || negb (isnil (spell_chunk after)))
      && marksb (last_of (spell_chunk after)) r
  end.
Lemma marksb_spec l : forall prev, marksb prev l = true -> marks_fit prev l.
Proof.
  induction l as [|((k, i), a) l IH]; intros prev; [easy|]. cbn [marksb marks_fit]. intros H.
  apply andb_prop in H as (H & H6). apply andb_prop in H as (H & H5). apply andb_prop in H as (H & H4).
  apply andb_prop in H as (H & H3). apply andb_prop in H as (H1 & H2).
  split; [now apply chunkb_spec|]. split; [now apply isnil_spec|]. split; [now apply chunkb_spec|]. split; [|split; [|auto]].
  - intros C. apply constrainedb_spec in C. rewrite C in H4. cbn [negb orb] in H4. apply andb_prop in H4 as (H4 & ?). apply andb_prop in H4 as (? & ?).
    split; [now apply opensb_spec|split; [now apply huggedb_spec|now apply closesb_spec]].
  - intros N. apply orb_prop in H5 as [H5|H5]; [now apply nil_isnil in H5|now apply isnil_spec].
Qed.
Definition richb (r : rich) : bool :=
  negb (isnil (spell_rich r)) && chunkb (fst r) && startb (fst (fst r)) && marksb (last_of (spell_chunk (fst r))) (snd r).
Lemma richb_spec r : richb r = true -> rich_line r.
Proof.
  intros H. apply andb_prop in H as (H & H4). apply andb_prop in H as (H & H3). apply andb_prop in H as (H1 & H2).
  split; [now apply isnil_spec|split; [now apply chunkb_spec|split; [now apply startb_spec|now apply marksb_spec]]].
Qed.
Definition endsb (r : rich) : bool :=
  match rev (snd r) with [] => false | (_, _, after) :: _ => isnil (spell_chunk after) end.
Definition startsb (r : rich) : bool := isnil (spell_chunk (fst r)) && negb (isnil (snd r)).
Lemma endsb_spec r : ends_marked r -> endsb r = true.
Proof. intros (l & k & i & a & E & N). unfold endsb. rewrite E, rev_app_distr. cbn [rev app]. now rewrite N. Qed.
Lemma startsb_spec r : starts_marked r -> startsb r = true.
Proof. intros (E & N). unfold startsb. rewrite E. destruct (snd r); [congruence|easy]. Qed.
Fixpoint fitb (l : list rich) : bool :=
  match l with
  | [] => true
  | a :: r => richb a && match r with b :: _ => negb (endsb a && startsb b) | [] => true end && fitb r
  end.
Lemma fitb_spec l : fitb l = true -> lines_fit l.
Proof.
  induction l as [|a l IH]; [easy|]. cbn [fitb lines_fit]. intros H. apply andb_prop in H as (H & H3). apply andb_prop in H as (H1 & H2).
  split; [now apply richb_spec|split; [|auto]]. destruct l as [|b l]; [easy|]. intros (A & B).
  rewrite (endsb_spec _ A), (startsb_spec _ B) in H2. discriminate.
Qed.
Definition linesb (l : list rich) : bool := negb (isnil l) && fitb l.
Lemma linesb_spec l : linesb l = true -> lines_ok l.
Proof. intros H. apply andb_prop in H as (A & B). split; [now apply isnil_spec|now apply fitb_spec]. Qed.
Definition bodyb (l : list (option rich)) : bool := forallb (fun o => match o with Some r => richb r | None => true end) l.
Lemma bodyb_spec l : bodyb l = true -> body_ok l.
Proof. apply forallb_Forall. intros o H r ->. now apply richb_spec. Qed.

Definition graphicb (c : ascii) : bool := (33 <=? N_of_ascii c)%N && (N_of_ascii c <=? 126)%N.
Lemma graphicb_spec c : graphicb c = true -> graphic c.
Proof. intros H. apply andb_prop in H as (A & B). split; now apply N.leb_le. Qed.
Definition eqb_bytes (a b : bytes) : bool := if list_eq_dec Ascii.ascii_dec a b then true else false.
Definition entryb (name value : bytes) : bool :=
  nameb name && negb (eqb_bytes name (bs "leveloffset")) && negb (eqb_bytes name value)
  && low value && negb (existsb (Ascii.eqb "010") value) && negb (existsb (Ascii.eqb ":") value)
  && (isnil value || (graphicb (hd "000" value) && graphicb (last value "000"))).
Lemma eqb_bytes_spec a b : negb (eqb_bytes a b) = true -> a <> b.
Proof. unfold eqb_bytes. destruct (list_eq_dec _ a b); [discriminate|easy]. Qed.
Lemma entryb_spec n v : entryb n v = true -> simple_line (Entry n v).
Proof.
  intros H. unfold entryb in H.
  apply andb_prop in H as (H & H7). apply andb_prop in H as (H & H6). apply andb_prop in H as (H & H5). apply andb_prop in H as (H & H4).
  apply andb_prop in H as (H & H3). apply andb_prop in H as (H1 & H2).
  split; [now apply nameb_spec|]. split; [now apply eqb_bytes_spec|]. split; [now apply eqb_bytes_spec|]. split; [now apply low_utf8|].
  split; [apply has_spec; now apply negb_true_iff|]. split; [apply has_spec; now apply negb_true_iff|].
  destruct v as [|c r]; [now repeat split; left|]. cbn [isnil orb] in H7. apply andb_prop in H7 as (A & B). split; right.
  - exists c, r. split; [easy|now apply graphicb_spec].
  - exists (last (c :: r) "000"), (removelast (c :: r)). split; [apply app_removelast_last; discriminate|now apply graphicb_spec].
Qed.

Definition leafb (x : leaf) : bool :=
  match x with
  | Para l => linesb l
  | Items _ l => negb (isnil l) && forallb linesb l
  | Verbatim _ body | CommentBlock body => bodyb body
  | CommentLine s => low s && negb (existsb (Ascii.eqb "010") s) && negb (prefixb ["/"] s)
                     && negb (prefixb (bs " tag::") s) && negb (prefixb (bs " end::") s)
  | Setting name value => entryb name value
  | Gap => true
  end.
Lemma leafb_spec x : leafb x = true -> leaf_ok x.
Proof.
  destruct x; intros H.
  - now apply linesb_spec.
  - apply andb_prop in H as (A & B). split; [now apply isnil_spec|]. revert B. apply forallb_Forall. apply linesb_spec.
  - now apply bodyb_spec.
  - cbn [leafb] in H. apply andb_prop in H as (H & H5). apply andb_prop in H as (H & H4). apply andb_prop in H as (H & H3). apply andb_prop in H as (H1 & H2).
    split; [now apply low_utf8|]. split; [apply has_spec; now apply negb_true_iff|].
    split; [|split; apply prefixb_not; now apply negb_true_iff].
    intros r ->. cbn in H3. discriminate.
  - now apply bodyb_spec.
  - now apply entryb_spec.
  - exact I.
Qed.
Definition pieceb (p : piece) : bool :=
  match p with
  | Leaf x => leafb x
  | Heading n t => (1 <=? n) && (n <=? 4) && richb t
  | Admonition _ l => linesb l
  | Break _ => true
  | Box _ l last => forallb leafb l && fitb last
  end.
Lemma pieceb_spec p : pieceb p = true -> piece_ok p.
Proof.
  destruct p; intros H.
  - now apply leafb_spec.
  - cbn [pieceb] in H. apply andb_prop in H as (H & H3). apply andb_prop in H as (H1 & H2).
    split; [split; now apply Nat.leb_le|now apply richb_spec].
  - now apply linesb_spec.
  - exact I.
  - apply andb_prop in H as (A & B). split; [|now apply fitb_spec]. revert A. apply forallb_Forall. apply leafb_spec.
Qed.
Fixpoint clearb (level : nat) (l : list block) : bool :=
  match l with
  | [] => true
  | Blk (HSection _ _ n) _ _ _ :: r => clearb n r
  | Blk (HParent _ _ _ _) _ _ _ :: r =>
      match r with Blk (HSection _ _ n) _ _ _ :: _ => n <=? level | _ => true end && clearb level r
  | _ :: r => clearb level r
  end.
Lemma clearb_spec l : forall n, clearb n l = true -> subsections_clear n l.
Proof.
  induction l as [|(h, m, k, c) l IH]; intros n; [easy|]. destruct h; cbn [clearb subsections_clear]; auto.
  intros H. apply andb_prop in H as (A & B). split; [|auto].
  destruct l as [|(h, ?, ?, ?) ?]; [easy|]. destruct h; try easy. now apply Nat.leb_le.
Qed.
Definition titleb (t : rich) : bool :=
  richb t && isnil (snd (fst t))
  && forallb (fun x => let '(k, inside, after) := x in constrainedb k && isnil (snd inside) && isnil (snd after)) (snd t).
Lemma titleb_spec t : titleb t = true -> title_ok t.
Proof.
  intros H. apply andb_prop in H as (H & H3). apply andb_prop in H as (H1 & H2). split; [now apply richb_spec|]. split; [now apply nil_isnil|].
  revert H3. apply forallb_Forall. intros ((k, i), a) H. apply andb_prop in H as (H & ?). apply andb_prop in H as (? & ?).
  split; [now apply constrained_of|split; now apply nil_isnil].
Qed.
Definition articleb (a : article) : bool :=
  match ar_title a with
  | None => true
  | Some (t, l) => titleb t && forallb (fun x => entryb (fst x) (snd x)) l
  end && forallb pieceb (ar_pieces a) && clearb 0 (article_flat a).
Lemma articleb_spec a : articleb a = true -> article_ok a.
Proof.
  intros H. apply andb_prop in H as (H & H3). apply andb_prop in H as (H1 & H2). split; [|split].
  - destruct (ar_title a) as [(t, l)|]; [|easy]. apply andb_prop in H1 as (A & B). split; [now apply titleb_spec|].
    revert B. apply forallb_Forall. intros x. apply entryb_spec.
  - revert H2. apply forallb_Forall. apply pieceb_spec.
  - now apply clearb_spec.
Qed.
