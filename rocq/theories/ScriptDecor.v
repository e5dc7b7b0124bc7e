(** * Scripts: what the parser makes of attribute lines and anchors *)
From Verif Require SpecMeta MetaProofs ScanLemmas DocGraph.
From Verif Require Import Base World Location Token Meta Inline Block Asg Parser SpecScan SpecLex SpecDoc SpecArticle
  ScriptWords ScriptText SpecScript.
Local Open Scope char_scope.
Local Open Scope nat_scope.
Local Arguments token_locations : simpl never.

Lemma beqb_sym a b : beqb a b = beqb b a.
Proof.
  destruct (beqb a b) eqn:E.
  - apply ScanLemmas.beqb_eq in E as ->. symmetry. now apply ScanLemmas.beqb_eq.
  - destruct (beqb b a) eqn:E'; [|reflexivity]. apply ScanLemmas.beqb_eq in E' as ->. now rewrite (proj2 (ScanLemmas.beqb_eq a a) eq_refl) in E.
Qed.
Lemma enter_insert k v l : minsert k v l = enter k v l.
Proof. induction l as [|[k' v'] l IH]; [reflexivity|]. cbn [minsert enter fst]. rewrite (beqb_sym k' k), IH. reflexivity. Qed.
Lemma lookup_get {A} k (l : list (bytes * A)) : mget k l = lookup k l.
Proof.
  unfold lookup. induction l as [|[k' v'] l IH]; [reflexivity|]. cbn [mget find fst]. rewrite (beqb_sym k' k). destruct (beqb k k'); [reflexivity|exact IH].
Qed.
Lemma insert_attr k v m : m_insert k v m = with_attr k v m.
Proof. unfold m_insert, set_m_attrs. now rewrite enter_insert. Qed.

(** ** Locations do not matter *)
Lemma field_unplaced i f m : field_meta i f (unplaced_meta m) = option_map unplaced_meta (field_meta i f m).
Proof.
  destruct f as [| |s]; try reflexivity. cbn [field_meta]. unfold plain_meta. cbn [unplaced_meta m_type].
  destruct (_ && _); [reflexivity|]. destruct s as [|c s]; [reflexivity|]. destruct (m_type m) as [[]|]; try reflexivity; destruct (i =? 1); try reflexivity; destruct (i =? 2); reflexivity.
Qed.
Lemma fields_unplaced l : forall i m, fields_meta i l (unplaced_meta m) = option_map unplaced_meta (fields_meta i l m).
Proof.
  induction l as [|f l IH]; intros i m; [reflexivity|]. cbn [fields_meta]. rewrite field_unplaced. destruct (field_meta i f m); [apply IH|reflexivity].
Qed.
Lemma decor_unplaced d m : decor_meta d (unplaced_meta m) = option_map unplaced_meta (decor_meta d m).
Proof. destruct d as [id|q l]; [|apply fields_unplaced]. cbn [decor_meta option_map unplaced_meta m_attrs]. now destruct (lookup (bs "id") (m_attrs m)). Qed.

(** ** Characters *)
Lemma lacks_in l s c : lacks l s = true -> In c l -> ~ In c s.
Proof.
  unfold lacks. rewrite forallb_forall. intros H C S. specialize (H c S). apply negb_true_iff in H.
  assert (existsb (Ascii.eqb c) l = true) as X by (apply existsb_exists; exists c; split; [assumption|apply Ascii.eqb_refl]). congruence.
Qed.
Ltac lacking H := let X := fresh in intros X; revert X; apply (lacks_in _ _ _ H); cbn; tauto.
Lemma split_single (c : ascii) s : ~ In c s -> split_on (fun x => Ascii.eqb x c) s = [s].
Proof.
  induction s as [|x s IH]; intros H; [reflexivity|]. cbn [split_on]. destruct (Ascii.eqb x c) eqn:E.
  - apply Ascii.eqb_eq in E. subst. destruct H. now left.
  - rewrite IH; [reflexivity|]. intros X. apply H. now right.
Qed.
Lemma split_more (c : ascii) s r : ~ In c s -> split_on (fun x => Ascii.eqb x c) (s ++ c :: r) = s :: split_on (fun x => Ascii.eqb x c) r.
Proof.
  induction s as [|x s IH]; intros H; cbn [app split_on].
  - now rewrite Ascii.eqb_refl.
  - destruct (Ascii.eqb x c) eqn:E.
    + apply Ascii.eqb_eq in E. subst. destruct H. now left.
    + rewrite IH; [reflexivity|]. intros X. apply H. now right.
Qed.
Lemma split_commas l : l <> [] -> Forall (fun s => ~ In "," s) l -> split_on (fun x => Ascii.eqb x ",") (SpecMeta.comma_list l) = l.
Proof.
  induction l as [|s l IH]; [congruence|]. intros _ F. inversion F as [|? ? F1 F2]. subst. destruct l as [|s' l]; [now apply split_single|].
  cbn [SpecMeta.comma_list]. cbn [SpecMeta.comma_list] in IH. rewrite split_more by assumption. f_equal. apply IH; [discriminate|assumption].
Qed.
Lemma split_spaces l : l <> [] -> Forall (fun s => ~ In SP s) l -> split_on (fun x => Ascii.eqb x SP) (SpecMeta.spaced l) = l.
Proof.
  induction l as [|s l IH]; [congruence|]. intros _ F. inversion F as [|? ? F1 F2]. subst. destruct l as [|s' l]; [now apply split_single|].
  cbn [SpecMeta.spaced]. cbn [SpecMeta.spaced] in IH. rewrite split_more by assumption. f_equal. apply IH; [discriminate|assumption].
Qed.
Lemma in_commas c l : In c (SpecMeta.comma_list l) -> c = "," \/ exists s, In s l /\ In c s.
Proof.
  induction l as [|s l IH]; [intros []|]. destruct l as [|s' l].
  - cbn. intros H. right. exists s. auto.
  - change (SpecMeta.comma_list (s :: s' :: l)) with (s ++ "," :: SpecMeta.comma_list (s' :: l)). intros H. apply in_app_or in H as [H|[H|H]].
    + right. exists s. cbn. auto.
    + left. congruence.
    + destruct (IH H) as [X|(x & X & Y)]; [now left|right]. exists x. cbn in *. tauto.
Qed.
Lemma in_spaces c l : In c (SpecMeta.spaced l) -> c = SP \/ exists s, In s l /\ In c s.
Proof.
  induction l as [|s l IH]; [intros []|]. destruct l as [|s' l].
  - cbn. intros H. right. exists s. auto.
  - change (SpecMeta.spaced (s :: s' :: l)) with (s ++ SP :: SpecMeta.spaced (s' :: l)). intros H. apply in_app_or in H as [H|[H|H]].
    + right. exists s. cbn. auto.
    + left. congruence.
    + destruct (IH H) as [X|(x & X & Y)]; [now left|right]. exists x. cbn in *. tauto.
Qed.
Lemma in_roles c l s : forallb (lacks l) s = true -> In c l -> c <> SP -> ~ In c (SpecMeta.spaced s).
Proof.
  intros F C N H. apply in_spaces in H as [H|(x & X & Y)]; [congruence|]. rewrite forallb_forall in F. exact (lacks_in _ _ _ (F x X) C Y).
Qed.

(** ** One field *)
Lemma re_named_eq n s : ~ In "=" n -> ~ In "|" n -> ~ In "," n -> ~ In NL n -> ~ In NL s -> forall acc, re_named acc (n ++ "=" :: s) = Some (rev acc ++ n, s).
Proof.
  intros N1 N2 N3 N4 S. induction n as [|c n IH]; intros acc.
  - cbn [app re_named]. change (is_named_sep "=") with true. cbv iota. rewrite MetaProofs.take_line_all by exact S. now rewrite app_nil_r.
  - cbn [app re_named].
    assert (is_named_sep c = false) as ->.
    { unfold is_named_sep, memc. cbn. rewrite (proj2 (Ascii.eqb_neq c "=")), (proj2 (Ascii.eqb_neq c "|")), (proj2 (Ascii.eqb_neq c ",")); [reflexivity| | |]; intros ->; cbn in *; tauto. }
    rewrite (proj2 (Ascii.eqb_neq c NL)) by (intros ->; cbn in *; tauto). rewrite IH by (cbn in *; tauto). cbn [rev]. now rewrite <- app_assoc.
Qed.
Lemma re_named_none s : ~ In "=" s -> ~ In "|" s -> ~ In "," s -> ~ In NL s -> forall acc, re_named acc s = None.
Proof.
  induction s as [|c s IH]; intros N1 N2 N3 N4 acc; [reflexivity|]. cbn [re_named].
  assert (is_named_sep c = false) as ->.
  { unfold is_named_sep, memc. cbn. rewrite (proj2 (Ascii.eqb_neq c "=")), (proj2 (Ascii.eqb_neq c "|")), (proj2 (Ascii.eqb_neq c ",")); [reflexivity| | |]; intros ->; cbn in *; tauto. }
  rewrite (proj2 (Ascii.eqb_neq c NL)) by (intros ->; cbn in *; tauto). apply IH; cbn in *; tauto.
Qed.
Lemma join_split v : join [SP] (split_on (fun x => Ascii.eqb x SP) v) = v.
Proof. rewrite MetaProofs.join_spaced. apply (MetaProofs.split_words v). Qed.
Lemma named_field m i n v : ~ In "=" n -> ~ In "|" n -> ~ In "," n -> ~ In NL n -> ~ In NL v -> ~ In DQ v ->
  process_one m i (n ++ "=" :: v) = Ok (if beqb n (bs "role") then with_roles (split_on (fun x => Ascii.eqb x SP) v) m else with_attr n v m).
Proof.
  intros N1 N2 N3 N4 V1 V2. unfold process_one, key_values_from_named_attribute. rewrite re_named_eq by assumption. cbn [rev app].
  rewrite MetaProofs.no_dq_start by assumption. cbn [bind]. destruct (beqb n (bs "role")); [reflexivity|]. now rewrite insert_attr, join_split.
Qed.
Lemma head_two c1 c2 s : match s with c :: _ => is_cont c = false | [] => True end -> slice (c1 :: c2 :: s) 0 2 = (Ok [c1; c2] : result bytes).
Proof.
  intros H. unfold slice. change (0 <=? 2) with true. assert ((2 <=? List.length (c1 :: c2 :: s)) = true) as -> by reflexivity.
  assert (is_boundary (c1 :: c2 :: s) 0 = true) as -> by reflexivity.
  assert (is_boundary (c1 :: c2 :: s) 2 = true) as ->; [|reflexivity].
  unfold is_boundary. cbn. destruct s as [|c s]; [reflexivity|]. cbn. now rewrite H.
Qed.
Lemma plain_field m i s : lacks ["="; "|"; ","; "034"; "010"] s = true ->
  (i = 0 -> match s with _ :: _ :: c :: _ => is_cont c = false | _ => True end) ->
  process_one m i s = match plain_meta i s m with Some m' => Ok m' | None => Panic end.
Proof.
  intros L B. unfold process_one, key_values_from_named_attribute. rewrite re_named_none by lacking L. cbn [bind].
  assert (process_attribute m i s = match (match m_type m with
    | Some ASource => Some (if i =? 1 then with_attr (bs "language") (trim s) m else m)
    | Some AQuote | Some AVerse =>
      if i =? 1 then Some (with_attr (bs "attribution") (trim s) m)
      else if i =? 2 then Some (with_attr (bs "citation") (trim s) m) else None
    | Some ALines => None
    | _ => Some (with_attr (bs "positional_" ++ dec (i + 1)) s m) end) with Some m' => Ok m' | None => Panic end) as P.
  { unfold process_attribute. rewrite MetaProofs.no_dq_start by lacking L. cbn [bind]. rewrite !insert_attr.
    destruct (m_type m) as [[]|]; try reflexivity; destruct (i =? 1); try reflexivity; destruct (i =? 2); reflexivity. }
  assert (forall c r, s = c :: r -> process_attribute m i s = match (match s, m_type m with
  | [], _ => Some m
  | _, Some ASource => Some (if i =? 1 then with_attr (bs "language") (trim s) m else m)
  | _, Some AQuote | _, Some AVerse =>
      if i =? 1 then Some (with_attr (bs "attribution") (trim s) m)
      else if i =? 2 then Some (with_attr (bs "citation") (trim s) m) else None
  | _, Some ALines => None
  | _, _ => Some (with_attr (bs "positional_" ++ dec (i + 1)) s m)
  end) with Some m' => Ok m' | None => Panic end) as P'.
  { intros c r Es. rewrite P. rewrite Es. reflexivity. }
  clear P. unfold plain_meta. destruct (i =? 0) eqn:I0; [|cbn [andb]; destruct s as [|c s]; [reflexivity|]; exact (P' c s eq_refl)].
  apply Nat.eqb_eq in I0. specialize (B I0). subst i. destruct s as [|c1 [|c2 s]]; [reflexivity| |].
  { assert (existsb (beqb (firstn 2 [c1])) [bs "so"; bs "qu"; bs "ve"] = false) as ->; [|exact (P' _ _ eq_refl)].
    cbn. now rewrite !andb_false_r. }
  cbn [andb]. change (2 <=? List.length (c1 :: c2 :: s)) with true. cbv iota. rewrite head_two by assumption. cbn [bind].
  change (firstn 2 (c1 :: c2 :: s)) with [c1; c2]. unfold memb. destruct (existsb (beqb [c1; c2]) _) eqn:Ex; [|exact (P' _ _ eq_refl)].
  f_equal. unfold set_m_type, with_type. f_equal. unfold attribute_type_from_str.
  replace (beqb (c1 :: c2 :: s) (bs "role")) with false; [reflexivity|]. symmetry.
  destruct (beqb (c1 :: c2 :: s) (bs "role")) eqn:R; [|reflexivity]. apply ScanLemmas.beqb_eq in R. injection R as -> -> ->. discriminate Ex.
Qed.
Lemma field_step m i f : field_fits f = true -> (i = 0 -> match f with Plain (_ :: _ :: c :: _) => is_cont c = false | _ => True end) ->
  process_one m i (field_text false f) = match field_meta i f m with Some m' => Ok m' | None => Panic end.
Proof.
  intros F B. destruct f as [n v|l|s]; cbn [field_text field_pair fst snd field_meta].
  - cbn [field_fits] in F. apply andb_prop in F as [F V]. apply andb_prop in F as [N R]. apply negb_true_iff in R.
    rewrite named_field; try (lacking N); try (lacking V). now rewrite R.
  - cbn [field_fits] in F. apply andb_prop in F as [Ne F]. assert (l <> []) as Nl by (destruct l; [discriminate|discriminate]).
    rewrite named_field; try (cbn; intuition discriminate); try (apply (in_roles _ _ _ F); [cbn; tauto|discriminate]).
    rewrite split_spaces; [reflexivity|assumption|]. apply Forall_forall. intros x X. rewrite forallb_forall in F. apply (lacks_in _ _ _ (F x X)). cbn. tauto.
  - apply plain_field; [exact F|]. intros I0. specialize (B I0). destruct s as [|? [|? [|? ?]]]; auto.
Qed.
Lemma fields_step l : forall m i, forallb field_fits l = true -> (i = 0 -> match l with Plain (_ :: _ :: c :: _) :: _ => is_cont c = false | _ => True end) ->
  process_from m i (map (field_text false) l) = match fields_meta i l m with Some m' => Ok m' | None => Panic end.
Proof.
  induction l as [|f l IH]; intros m i F B; [reflexivity|]. cbn [forallb] in F. apply andb_prop in F as [F1 F2]. cbn [map process_from fields_meta].
  rewrite field_step; [|exact F1|].
  - destruct (field_meta i f m); [|reflexivity]. cbn [bind]. apply IH; [exact F2|discriminate].
  - intros I0. specialize (B I0). destruct f as [| |[|? [|? [|? ?]]]]; auto.
Qed.
Lemma quoted_fields l : Forall quotable l -> forall m i, fields_meta i l m = Some (fold_left MetaProofs.add_pair (map field_pair l) m).
Proof.
  induction 1 as [|f l Q _ IH]; intros m i; [reflexivity|]. cbn [map fields_meta fold_left]. destruct f as [n v|r|]; [| |destruct Q]; cbn [field_meta field_pair].
  - destruct Q as (R & _). rewrite IH. do 2 f_equal. unfold MetaProofs.add_pair, SpecMeta.is_role. cbn [fst snd].
    destruct (beqb n (bs "role")) eqn:E; [apply ScanLemmas.beqb_eq in E; congruence|]. now rewrite insert_attr.
  - destruct Q as (N & S & _). rewrite IH. do 2 f_equal. unfold MetaProofs.add_pair, SpecMeta.is_role. cbn [fst snd]. change (beqb (bs "role") (bs "role")) with true. cbv iota.
    rewrite split_spaces; [reflexivity|exact N|]. apply Forall_forall. intros x X. rewrite forallb_forall in S. apply (lacks_in _ _ _ (S x X)). cbn. tauto.
Qed.
Lemma quotable_ok l : Forall quotable l -> Forall MetaProofs.okp (map field_pair l).
Proof.
  intros Q. apply Forall_map. eapply Forall_impl; [|exact Q]. intros [n v|r|s] X; [exact (proj2 X)| |destruct X]. destruct X as (_ & _ & X). split; [|exact X].
  split; [discriminate|]. cbn. repeat constructor.
Qed.
Lemma field_no_dq f : field_fits f = true -> ~ In DQ (field_text false f).
Proof.
  destruct f as [n v|l|s]; cbn [field_fits field_text field_pair fst snd]; intros F H.
  - apply andb_prop in F as [F V]. apply andb_prop in F as [N R]. apply in_app_or in H as [H|[H|H]]; [revert H; lacking N|discriminate|revert H; lacking V].
  - apply andb_prop in F as [_ F]. apply in_app_or in H as [H|[H|H]]; [cbn in H; intuition discriminate|discriminate|].
    revert H. apply (in_roles _ _ _ F); [cbn; tauto|discriminate].
  - revert H. lacking F.
Qed.
Lemma field_no_comma f : field_fits f = true -> ~ In "," (field_text false f).
Proof.
  destruct f as [n v|l|s]; cbn [field_fits field_text field_pair fst snd]; intros F H.
  - apply andb_prop in F as [F V]. apply andb_prop in F as [N R]. apply in_app_or in H as [H|[H|H]]; [revert H; lacking N|discriminate|revert H; lacking V].
  - apply andb_prop in F as [_ F]. apply in_app_or in H as [H|[H|H]]; [cbn in H; intuition discriminate|discriminate|].
    revert H. apply (in_roles _ _ _ F); [cbn; tauto|discriminate].
  - revert H. lacking F.
Qed.
Lemma plain_text_extracted w s : ~ In DQ s -> extract_attributes w s = split_on (fun x => Ascii.eqb x ",") s.
Proof.
  intros H. unfold extract_attributes. rewrite MetaProofs.no_quoted; [reflexivity|]. now rewrite DocGraph.unchars_chars.
Qed.
(** the attributes of a line, added to metadata *)
Lemma line_step w d m : decor_fits d -> (match d with Anchor _ => False | _ => True end) ->
  process_attributes m (extract_attributes w (decor_text d)) = match decor_meta d m with Some m' => Ok m' | None => Panic end.
Proof.
  destruct d as [|[|] l]; intros F D; [destruct D| |]; cbn [decor_meta]; unfold process_attributes.
  - destruct F as [Q A]. pose proof (quotable_ok _ Q) as OK.
    assert (decor_text (Fields true l) = SpecMeta.attribute_list (map field_pair l)) as ->.
    { unfold decor_text, SpecMeta.attribute_list. rewrite map_map. f_equal. apply map_ext_in. intros f X. rewrite Forall_forall in Q. specialize (Q f X).
      destruct f; [reflexivity|reflexivity|destruct Q]. }
    destruct (MetaProofs.extracted w _ OK A) as (e & -> & E). rewrite MetaProofs.process_pairs by assumption. now rewrite quoted_fields.
  - destruct F as (N & F & S & B). rewrite plain_text_extracted.
    + cbn [decor_text]. rewrite split_commas.
      * apply fields_step; auto.
      * destruct l; [congruence|discriminate].
      * apply Forall_map, Forall_forall. intros f X. rewrite forallb_forall in F. now apply field_no_comma, F.
    + intros H. cbn [decor_text] in H. apply in_commas in H as [H|(s & X & Y)]; [discriminate|]. apply in_map_iff in X as (f & <- & X).
      rewrite forallb_forall in F. exact (field_no_dq _ (F f X) Y).
Qed.
Lemma line_start d : decor_fits d -> match decor_text d with c :: _ => is_cont c = false | [] => True end.
Proof.
  assert (forall s, starts_ok s = true -> match s with c :: _ => is_cont c = false | [] => True end) as H.
  { intros [|c s]; [exact (fun _ => I)|]. cbn. now rewrite negb_true_iff. }
  destruct d as [|[|] l]; intros F; [now apply H| |apply H; exact (proj1 (proj2 (proj2 F)))]. destruct F as [Q A].
  replace (decor_text (Fields true l)) with (SpecMeta.attribute_list (map field_pair l)); [now apply MetaProofs.attribute_list_start, quotable_ok|].
  unfold decor_text, SpecMeta.attribute_list. rewrite map_map. f_equal. apply map_ext_in. intros f X. rewrite Forall_forall in Q. specialize (Q f X).
  destruct f; [reflexivity|reflexivity|destruct Q].
Qed.
Lemma anchor_inner s : starts_char s -> Meta.inner (bs "[[" ++ s ++ bs "]]") 2 2 = (Ok s : result bytes).
Proof.
  intros H. unfold Meta.inner. rewrite !app_length. cbn [List.length].
  replace (List.length (bs "[[") + (List.length s + List.length (bs "]]")) <? 2) with false by (symmetry; apply Nat.ltb_ge; cbn; lia).
  pose proof (slice_mid (E := error) (bs "[[") s (bs "]]")) as M.
  replace (List.length (bs "[[") + (List.length s + List.length (bs "]]")) - 2) with (List.length (bs "[[") + List.length s) by (cbn; lia).
  change 2 with (List.length (bs "[[")). apply M; [|reflexivity]. destruct s; [reflexivity|exact H].
Qed.

(** ** The tokens *)
Lemma decor_add w d t m m' : is_word (decor_word d) t -> decor_fits d -> decor_meta d (unplaced_meta m) = Some m' ->
  exists m1, add_metadata_from_token w m t = Ok m1 /\ unplaced_meta m1 = m'.
Proof.
  intros W F M. rewrite decor_unplaced in M. destruct (decor_meta d m) as [m1|] eqn:E; [|discriminate]. injection M as M. exists m1. split; [|exact M].
  unfold add_metadata_from_token. destruct W as (T & L & _). rewrite T, L. pose proof (line_start d F) as S. pose proof (line_step w d m F) as P.
  destruct d as [id|q l]; cbn [decor_word fst snd].
  - rewrite anchor_inner by exact S. cbn [bind]. unfold mhas. rewrite lookup_get. cbn [decor_meta] in E.
    destruct (lookup (bs "id") (m_attrs m)); [congruence|]. rewrite insert_attr. congruence.
  - pose proof (MetaProofs.lexeme_inner (decor_text (Fields q l)) S) as I. 
    change (bs "[" ++ decor_text (Fields q l) ++ bs "]") with ("[" :: decor_text (Fields q l) ++ ["]"]) in I. rewrite I. cbn [bind]. rewrite P by exact Logic.I. now rewrite E.
Qed.
Lemma decor_new w d t m' : is_word (decor_word d) t -> decor_fits d -> decor_meta d blank = Some m' ->
  exists m1, new_block_meta_from_token w t = Ok m1 /\ unplaced_meta m1 = m'.
Proof.
  intros W F M. destruct (decor_add w d t (mkMeta [] [] [] false None (token_locations t)) m' W F M) as (m1 & E & U). exists m1. split; [|exact U].
  rewrite <- E. unfold new_block_meta_from_token, add_metadata_from_token. destruct (ttype t); reflexivity.
Qed.
Lemma decor_type d : fst (decor_word d) = TBlockAnchor \/ fst (decor_word d) = TElementAttributes.
Proof. destruct d; auto. Qed.
