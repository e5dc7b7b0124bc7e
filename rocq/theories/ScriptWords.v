(** * Scripts: the lexemes of styles, images, links and cross references *)
From Verif Require Import Base World Location Token Meta Inline SpecScan SpecLex SpecDoc DocGraph MetaProofs SpecScript.
Local Open Scope char_scope.
Local Open Scope nat_scope.
Local Arguments token_text : simpl never.
Local Arguments token_locations : simpl never.

(** a character starts here *)
Definition starts_char (s : bytes) : Prop := match s with c :: _ => is_cont c = false | [] => True end.
Lemma boundary_app x y : starts_char y -> is_boundary (x ++ y) (List.length x) = true.
Proof.
  intros H. unfold is_boundary. rewrite nth_error_app2, Nat.sub_diag by lia. destruct y as [|c y]; cbn [nth_error].
  - rewrite app_nil_r. apply Nat.eqb_refl.
  - cbn in H. rewrite H. apply orb_true_r.
Qed.
Lemma slice_mid {E} x y z : starts_char (y ++ z) -> starts_char z -> slice (E := E) (x ++ y ++ z) (List.length x) (List.length x + List.length y) = Ok y.
Proof.
  intros Y Z. unfold slice. rewrite boundary_app by exact Y. replace (x ++ y ++ z) with ((x ++ y) ++ z) by apply app_assoc_reverse.
  rewrite <- app_length, boundary_app by exact Z. rewrite !app_length.
  rewrite (proj2 (Nat.leb_le _ _)), (proj2 (Nat.leb_le _ _)) by lia. cbn [andb]. f_equal.
  rewrite <- app_assoc. rewrite skipn_app, skipn_all, Nat.sub_diag. cbn [app skipn].
  replace (List.length x + List.length y - List.length x) with (List.length y) by lia.
  rewrite firstn_app, firstn_all, Nat.sub_diag. apply app_nil_r.
Qed.
Lemma slice_tail {E} x y : starts_char y -> slice (E := E) (x ++ y) (List.length x) (List.length (x ++ y)) = Ok y.
Proof.
  intros Y. pose proof (slice_mid (E := E) x y []) as H. rewrite !app_nil_r in H. rewrite app_length. now apply H.
Qed.

(** ** Styles *)
Lemma split_some p s : split_on p s <> [].
Proof. destruct s as [|c s]; [discriminate|]. cbn. destruct (p c); [discriminate|]. destruct (split_on p s); discriminate. Qed.
Lemma split_free p s r : existsb p s = false -> split_on p (s ++ r) = match split_on p r with x :: l => (s ++ x) :: l | [] => [] end.
Proof.
  induction s as [|c s IH]; cbn [existsb app]; intros H.
  - destruct r as [|d r]; [reflexivity|]. cbn. destruct (p d); [reflexivity|]. now destruct (split_on p r).
  - apply orb_false_iff in H as [H1 H2]. cbn [split_on]. rewrite H1, IH by exact H2. pose proof (split_some p r). destruct (split_on p r); [congruence|reflexivity].
Qed.
Lemma split_roles roles : forallb role_fits roles = true ->
  split_on (fun c => Ascii.eqb c ".") (List.concat (map (cons ".") roles)) = [] :: roles.
Proof.
  induction roles as [|r roles IH]; [reflexivity|]. cbn [forallb map List.concat app]. intros [H1 H2]%andb_prop.
  cbn [split_on]. rewrite Ascii.eqb_refl. f_equal. rewrite split_free, (IH H2).
  - now rewrite app_nil_r.
  - destruct r as [|c r]; [discriminate|]. cbn [role_fits] in H1. apply negb_true_iff in H1.
    refine (eq_trans _ H1). clear. induction (c :: r) as [|d l IH]; [reflexivity|]. cbn [existsb]. now rewrite IH, Ascii.eqb_sym.
Qed.
Lemma style_token roles t : roles <> [] -> forallb role_fits roles = true ->
  lexeme t = "[" :: List.concat (map (cons ".") roles) ++ ["]"] ->
  exists m, new_inline_meta_from_token t = Ok m /\ Some (unplaced_meta m) = style_meta roles.
Proof.
  intros N F L. unfold new_inline_meta_from_token. rewrite L, inner_mid; [|reflexivity|].
  2: { destruct roles as [|r roles]; [congruence|]. reflexivity. }
  cbn [bind]. eexists. split; [reflexivity|]. rewrite split_roles by exact F. unfold unplaced_meta. cbn [m_attrs m_options m_roles m_inline m_type].
  cbn [filter].
  replace (filter (fun s : bytes => match s with [] => false | _ => true end) roles) with roles.
  - destruct roles; [congruence|reflexivity].
  - clear - F. induction roles as [|r roles IH]; [reflexivity|]. cbn in F. apply andb_prop in F as [F1 F2]. destruct r; [discriminate|].
    cbn. f_equal. now apply IH.
Qed.

(** ** Images *)
Lemma span_target s r : target_fits s = true -> span_until (s ++ "[" :: r) = List.length s.
Proof.
  unfold target_fits. intros H%negb_true_iff. induction s as [|c s IH]; [reflexivity|]. cbn [existsb] in H. apply orb_false_iff in H as [H1 H2].
  cbn [app span_until List.length]. rewrite Ascii.eqb_sym, H1. now rewrite IH.
Qed.
Lemma alt_chars alt : alt_fits alt = true -> forall c, In c alt -> is_ascii c = true /\ c <> "=" /\ c <> "|" /\ c <> "," /\ c <> DQ /\ c <> NL.
Proof.
  unfold alt_fits. intros [H _]%andb_prop c I. rewrite forallb_forall in H. apply H in I. apply andb_prop in I as [I1 I2]. split; [exact I1|].
  apply negb_true_iff in I2. cbn [existsb] in I2. repeat (apply orb_false_iff in I2 as [?X I2]).
  repeat split; intros ->; discriminate.
Qed.
Lemma ascii_starts c : is_ascii c = true -> is_cont c = false.
Proof. destruct c as [[] [] [] [] [] [] [] []]; cbn; congruence. Qed.
Lemma alt_starts alt r : alt_fits alt = true -> starts_char r -> starts_char (alt ++ r).
Proof.
  intros F R. destruct alt as [|c alt]; [exact R|]. cbn. apply ascii_starts. apply (alt_chars _ F c). now left.
Qed.
Lemma re_named_none s acc : (forall c, In c s -> c <> "=" /\ c <> "|" /\ c <> "," /\ c <> NL) -> re_named acc s = None.
Proof.
  revert acc. induction s as [|c s IH]; intros acc H; [reflexivity|]. cbn [re_named]. destruct (H c (or_introl eq_refl)) as (E1 & E2 & E3 & E4).
  assert (is_named_sep c = false) as ->.
  { unfold is_named_sep, memc. cbn. rewrite (proj2 (Ascii.eqb_neq _ _) E1), (proj2 (Ascii.eqb_neq _ _) E2), (proj2 (Ascii.eqb_neq _ _) E3). reflexivity. }
  rewrite (proj2 (Ascii.eqb_neq _ _) E4). apply IH. intros d D. apply H. now right.
Qed.
Lemma alt_attributes w alt : alt_fits alt = true -> alt <> [] ->
  process_attributes (mkMeta [] [] [] true None []) (extract_attributes w alt) = Ok (mkMeta [(bs "positional_1", alt)] [] [] true None []).
Proof.
  intros F N. pose proof (alt_chars _ F) as A. unfold extract_attributes. rewrite no_quoted.
  2: { rewrite unchars_chars. intros I. apply A in I. tauto. }
  cbn [fold_left app]. replace (split_on (fun c => Ascii.eqb c ",") alt) with [alt].
  2: { pose proof (split_free (fun c => Ascii.eqb c ",") alt []) as H. rewrite !app_nil_r in H. cbn [split_on] in H. rewrite app_nil_r in H.
       symmetry. apply H. apply not_true_iff_false. rewrite existsb_exists. intros (c & I & ->%Ascii.eqb_eq). apply A in I. tauto. }
  unfold process_attributes. cbn [process_from]. unfold process_one, key_values_from_named_attribute.
  rewrite re_named_none by (intros c I; apply A in I; tauto). cbn [bind]. cbn [Nat.eqb andb].
  assert (process_attribute (mkMeta [] [] [] true None []) 0 alt = Ok (mkMeta [(bs "positional_1", alt)] [] [] true None [])) as P.
  { unfold process_attribute. cbn [m_type]. rewrite no_dq_start; [reflexivity|]. intros I. apply A in I. tauto. }
  rewrite P. destruct (2 <=? List.length alt) eqn:L.
  - destruct alt as [|c [|d r]]; try discriminate. 
    pose proof (slice_mid (E := error) [] [c; d] r) as S. cbn [List.length app Nat.add] in S. rewrite S.
    + cbn [bind]. unfold alt_fits in F. apply andb_prop in F as [_ F]. cbn [firstn] in F. apply negb_true_iff in F.
      unfold memb. unfold memb in *. rewrite F. reflexivity.
    + cbn. apply ascii_starts, A. now left.
    + destruct r as [|x r]; [exact I|]. cbn. apply ascii_starts, A. cbn. auto.
  - destruct alt; [congruence|]. reflexivity.
Qed.
Lemma image_token w t target alt : token_text t = bs "image:" ++ target ++ "[" :: alt ++ ["]"] -> ttype t = TInlineImageMacro ->
  starts_char target -> target_fits target = true -> alt_fits alt = true ->
  target_and_attrs_from_token w t = Ok (target, alt_meta alt).
Proof.
  intros X T S F A. unfold target_and_attrs_from_token. rewrite X, T.
  change 6 with (List.length (bs "image:")). rewrite slice_tail.
  2: { destruct target; [reflexivity|exact S]. }
  cbn [bind]. rewrite span_target by exact F. rewrite firstn_app, firstn_all, Nat.sub_diag, app_nil_r.
  pose proof (slice_mid (E := error) (target ++ ["["]) alt ["]"]) as M. rewrite <- app_assoc in M. cbn [app] in M.
  replace (List.length (target ++ "[" :: alt ++ ["]"]) <? 1) with false by (symmetry; apply Nat.ltb_ge; rewrite app_length; cbn; lia).
  replace (List.length (target ++ "[" :: alt ++ ["]"]) - 1) with (List.length (target ++ ["["]) + List.length alt)
    by (rewrite !app_length; cbn; rewrite app_length; cbn; lia).
  replace (List.length target + 1) with (List.length (target ++ ["["])) by (rewrite app_length; reflexivity).
  rewrite M; [|now apply alt_starts|reflexivity]. cbn [bind]. destruct alt as [|c alt]; [reflexivity|].
  rewrite alt_attributes; [reflexivity|exact A|discriminate].
Qed.
Lemma block_image_token w t target alt : token_text t = bs "image::" ++ target ++ "[" :: alt ++ ["]"] -> ttype t = TBlockImageMacro ->
  starts_char target -> target_fits target = true -> alt_fits alt = true ->
  target_and_attrs_from_token w t = Ok (target, alt_meta alt).
Proof.
  intros X T S F A. unfold target_and_attrs_from_token. rewrite X, T.
  change 7 with (List.length (bs "image::")). rewrite slice_tail.
  2: { destruct target; [reflexivity|exact S]. }
  cbn [bind]. rewrite span_target by exact F. rewrite firstn_app, firstn_all, Nat.sub_diag, app_nil_r.
  pose proof (slice_mid (E := error) (target ++ ["["]) alt ["]"]) as M. rewrite <- app_assoc in M. cbn [app] in M.
  replace (List.length (target ++ "[" :: alt ++ ["]"]) <? 1) with false by (symmetry; apply Nat.ltb_ge; rewrite app_length; cbn; lia).
  replace (List.length (target ++ "[" :: alt ++ ["]"]) - 1) with (List.length (target ++ ["["]) + List.length alt)
    by (rewrite !app_length; cbn; rewrite app_length; cbn; lia).
  replace (List.length target + 1) with (List.length (target ++ ["["])) by (rewrite app_length; reflexivity).
  rewrite M; [|now apply alt_starts|reflexivity]. cbn [bind]. destruct alt as [|c alt]; [reflexivity|].
  rewrite alt_attributes; [reflexivity|exact A|discriminate].
Qed.
Lemma alt_meta_unplaced alt : option_map unplaced_meta (alt_meta alt) = alt_meta alt.
Proof. destruct alt; reflexivity. Qed.

(** ** Links and cross references *)
Lemma link_target s : drop_last_char (s ++ ["["]) = s.
Proof. unfold drop_last_char. rewrite chars_snoc by reflexivity. rewrite removelast_last. apply unchars_chars. Qed.
Lemma xref_target s : starts_char s -> Meta.inner (bs "<<" ++ s ++ bs ">>") 2 2 = (Ok s : result bytes).
Proof.
  intros H. unfold Meta.inner. rewrite !app_length. cbn [List.length]. 
  replace (List.length (bs "<<") + (List.length s + List.length (bs ">>")) <? 2) with false by (symmetry; apply Nat.ltb_ge; cbn; lia).
  pose proof (slice_mid (E := error) (bs "<<") s (bs ">>")) as M.
  replace (List.length (bs "<<") + (List.length s + List.length (bs ">>")) - 2) with (List.length (bs "<<") + List.length s) by (cbn; lia).
  change 2 with (List.length (bs "<<")). apply M; [|reflexivity]. destruct s; [reflexivity|exact H].
Qed.
