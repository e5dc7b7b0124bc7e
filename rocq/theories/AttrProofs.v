(** * Lemmas on attribute lists *)
From Verif Require MetaProofs.
From Verif Require Import Base World Location Token Meta SpecMeta ScanLemmas SpecAttrs.
From Verif Require DocGraph ScriptWords.
Local Open Scope char_scope.
Local Open Scope nat_scope.

(** ** One item *)
Lemma named_sep c : c <> "," -> is_named_sep c = Ascii.eqb c "=" || Ascii.eqb c "|".
Proof.
  intros H. unfold is_named_sep, memc. cbn [existsb]. rewrite (proj2 (Ascii.eqb_neq c ",") H). now rewrite !orb_false_r.
Qed.
Lemma bare_named x : Forall (fun c => c <> "," /\ c <> DQ /\ c <> NL) x -> forall acc,
  re_named acc x = match parted x with Some (k, v) => Some (rev acc ++ k, v) | None => None end.
Proof.
  induction 1 as [|c x (Hc & _ & Hn) F IH]; intros acc; [reflexivity|]. cbn [re_named parted]. rewrite (named_sep c Hc).
  destruct (Ascii.eqb c "=" || Ascii.eqb c "|").
  - rewrite MetaProofs.take_line_all; [now rewrite app_nil_r|]. intros H. rewrite Forall_forall in F. apply F in H. tauto.
  - rewrite (proj2 (Ascii.eqb_neq c NL) Hn), IH. destruct (parted x) as [[k v]|]; [|reflexivity]. cbn [rev]. now rewrite <- app_assoc.
Qed.
Lemma parted_in x k v : parted x = Some (k, v) -> incl v x.
Proof.
  revert k. induction x as [|c x IH]; intros k E; [discriminate|]. cbn [parted] in E. destruct (_ || _).
  - injection E as <- <-. intros a A. now right.
  - destruct (parted x) as [[k' v']|]; [|discriminate]. injection E as _ ->. intros a A. right. now apply (IH k').
Qed.
Lemma key_values i : item_ok i -> key_values_from_named_attribute (item_text i)
  = Ok (option_map (fun kv => (fst kv, split_on (fun c => Ascii.eqb c SP) (snd kv))) (named i)).
Proof.
  destruct i as [n v|x]; intros O; [apply (MetaProofs.named_pair (n, v)); exact O|]. cbn [item_text named item_ok] in *. destruct O as (F & _).
  unfold key_values_from_named_attribute. rewrite (bare_named x F). destruct (parted x) as [[k v]|] eqn:E; [|reflexivity]. cbn [rev app option_map fst snd].
  replace (starts_with [DQ] v) with false; [reflexivity|]. symmetry. apply MetaProofs.no_dq_start. intros H. apply (parted_in _ _ _ E) in H. rewrite Forall_forall in F. apply F in H. tauto.
Qed.
Lemma bare_start x : Forall (fun c => c <> "," /\ c <> DQ /\ c <> NL) x -> starts_with [DQ] x = false.
Proof. intros F. apply MetaProofs.no_dq_start. intros H. rewrite Forall_forall in F. apply F in H. tauto. Qed.
(** what one item adds *)
Definition one (n : nat) (i : item) (m m' : metadata) : Prop :=
  m_type m' = (match n with 0 => style_after (m_type m) [i] | _ => m_type m end) /\ m_roles m' = m_roles m ++ roles_in i
  /\ m_options m' = m_options m /\ m_inline m' = m_inline m /\ m_loc m' = m_loc m
  /\ m_attrs m' = match given (m_type m) n i with Some kv => minsert (fst kv) (snd kv) (m_attrs m) | None => m_attrs m end.
Lemma by_type m n x : Forall (fun c => c <> "," /\ c <> DQ /\ c <> NL) x ->
  if match m_type m with Some AQuote | Some AVerse => negb ((n =? 1) || (n =? 2)) | Some ALines => true | _ => false end
  then process_attribute m n x = Panic
  else exists m', process_attribute m n x = Ok m' /\ m_type m' = m_type m /\ m_roles m' = m_roles m
    /\ m_options m' = m_options m /\ m_inline m' = m_inline m /\ m_loc m' = m_loc m
    /\ m_attrs m' = match by_place (m_type m) n x with Some kv => minsert (fst kv) (snd kv) (m_attrs m) | None => m_attrs m end.
Proof.
  intros F. unfold process_attribute. rewrite (bare_start x F). cbn [bind]. replace (n + 1) with (S n) by lia.
  destruct (m_type m) as [[]|] eqn:T; cbn [by_place]; try reflexivity; try (eexists; split; [reflexivity|]; repeat split; cbn; auto).
  - destruct n as [|[|[|n]]]; cbn [Nat.eqb orb negb]; try reflexivity; (eexists; split; [reflexivity|]; repeat split; cbn; auto).
  - destruct n as [|[|[|n]]]; cbn [Nat.eqb orb negb]; try reflexivity; (eexists; split; [reflexivity|]; repeat split; cbn; auto).
  - destruct n as [|[|n]]; cbn [Nat.eqb]; eexists; (split; [reflexivity|]); repeat split; cbn; auto.
Qed.
Lemma style_str x : is_style x = true -> attribute_type_from_str x = style_of x.
Proof.
  intros H. unfold attribute_type_from_str, style_of. destruct (beqb x (bs "role")) eqn:R; [apply ScanLemmas.beqb_eq in R as ->; discriminate H|].
  destruct (beqb x (bs "quote")) eqn:Q; [apply ScanLemmas.beqb_eq in Q as ->; reflexivity|].
  destruct (beqb x (bs "verse")) eqn:V; [apply ScanLemmas.beqb_eq in V as ->; reflexivity|]. reflexivity.
Qed.
Lemma one_item i m n : item_ok i ->
  if refused (m_type m) n i then process_one m n (item_text i) = Panic else exists m', process_one m n (item_text i) = Ok m' /\ one n i m m'.
Proof.
  intros O. unfold process_one. rewrite (key_values i O). cbn [bind]. unfold one, given, refused, roles_in. destruct (named i) as [[k v]|] eqn:N; cbn [option_map fst snd].
  - assert (match n with 0 => style_after (m_type m) [i] | S _ => m_type m end = m_type m) as ->.
    { destruct n; [|reflexivity]. destruct i as [|x]; [reflexivity|]. cbn [style_after named] in *. now rewrite N. }
    cbv iota. destruct (MetaProofs.split_words v) as (_ & S & _). rewrite MetaProofs.join_spaced, S.
    destruct (beqb k (bs "role")); eexists; (split; [reflexivity|]); cbn; rewrite ?app_nil_r; repeat split.
  - destruct i as [k v|x]; [discriminate N|]. cbn [named item_text style_after item_ok] in *. rewrite N. destruct O as (F & _). rewrite app_nil_r.
    pose proof (by_type m n x F) as B.
    set (bad := match m_type m with Some AQuote | Some AVerse => negb ((n =? 1) || (n =? 2)) | Some ALines => true | _ => false end) in *. clearbody bad. destruct x as [|a x].
    { replace ((n =? 0) && (2 <=? List.length (@nil ascii))) with false by now destruct n. exists m. split; [reflexivity|]. destruct n; repeat split. }
    destruct n as [|n]; cbn [Nat.eqb andb].
    2:{ cbn [orb negb andb] in *. destruct bad; [exact B|].
        destruct B as (m' & E & T & R & O & I & L & A). exists m'. split; [exact E|]. repeat split; assumption. }
    destruct x as [|b x].
    { change (2 <=? List.length [a]) with false. cbn [is_style orb negb andb] in *. cbv iota.
      destruct bad; [exact B|].
      destruct B as (m' & E & T & R & O & I & L & A). exists m'. split; [exact E|]. repeat split; assumption. }
    change (2 <=? List.length (a :: b :: x)) with true. cbv iota.
    assert (slice (a :: b :: x) 0 2 = if match x with c :: _ => is_cont c | [] => false end then (Panic : result bytes) else Ok [a; b]) as ->.
    { unfold slice. change (0 <=? 2) with true. change (2 <=? List.length (a :: b :: x)) with true. change (is_boundary (a :: b :: x) 0) with true.
      assert (is_boundary (a :: b :: x) 2 = negb match x with c :: _ => is_cont c | [] => false end) as -> by (unfold is_boundary; cbn [nth_error]; now destruct x).
      destruct (match x with c :: _ => is_cont c | [] => false end); reflexivity. }
    destruct (match x with c :: _ => is_cont c | [] => false end); [reflexivity|]. cbn [bind orb].
    assert (memb [a; b] [bs "so"; bs "qu"; bs "ve"] = is_style (a :: b :: x)) as ->.
    { unfold memb. cbn [existsb is_style]. now rewrite orb_false_r, orb_assoc. }
    destruct (is_style (a :: b :: x)) eqn:Y; cbn [negb andb].
    + eexists. split; [reflexivity|]. cbn [m_type set_m_type m_roles m_options m_inline m_loc m_attrs]. rewrite (style_str _ Y). repeat split.
    + destruct bad; [exact B|].
      destruct B as (m' & E & T & R & O & I & L & A). exists m'. split; [exact E|]. repeat split; assumption.
Qed.

(** ** Many items *)
Definition places (n : nat) (l : list item) : list (nat * item) := combine (seq n (List.length l)) l.
Definition givens_of (style : option attribute_type) (n : nat) (l : list item) : list (bytes * bytes) :=
  List.concat (map (fun x => match given style (fst x) (snd x) with Some kv => [kv] | None => [] end) (places n l)).
Definition latest (k : bytes) (l : list (bytes * bytes)) : option bytes := option_map snd (find (fun kv => beqb k (fst kv)) (rev l)).
Lemma find_app {A} (f : A -> bool) a b : find f (a ++ b) = match find f a with Some x => Some x | None => find f b end.
Proof. induction a as [|x a IH]; [reflexivity|]. cbn [app find]. now destruct (f x). Qed.
Lemma latest_app k a b : latest k (a ++ b) = match latest k b with Some v => Some v | None => latest k a end.
Proof. unfold latest. rewrite rev_app_distr, find_app. now destruct (find _ (rev b)). Qed.
Lemma places_cons n i l : places n (i :: l) = (n, i) :: places (S n) l.
Proof. reflexivity. Qed.
Lemma one_latest (m m' : metadata) n i k : one n i m m' ->
  mget k (m_attrs m') = match latest k (match given (m_type m) n i with Some kv => [kv] | None => [] end) with Some v => Some v | None => mget k (m_attrs m) end.
Proof.
  intros (_ & _ & _ & _ & _ & ->). destruct (given (m_type m) n i) as [[k' v]|]; [|reflexivity]. cbn [fst snd]. rewrite MetaProofs.minsert_mget.
  unfold latest. cbn [rev app find fst]. now destruct (beqb k k').
Qed.
Lemma more_items l : Forall item_ok l -> forall m n, 1 <= n ->
  if existsb (fun x => refused (m_type m) (fst x) (snd x)) (places n l) then process_from m n (map item_text l) = Panic
  else exists m', process_from m n (map item_text l) = Ok m' /\ m_type m' = m_type m /\ m_roles m' = m_roles m ++ List.concat (map roles_in l)
    /\ m_options m' = m_options m /\ m_inline m' = m_inline m /\ m_loc m' = m_loc m
    /\ forall k, mget k (m_attrs m') = match latest k (givens_of (m_type m) n l) with Some v => Some v | None => mget k (m_attrs m) end.
Proof.
  induction 1 as [|i l O F IH]; intros m n N.
  - exists m. cbn. now rewrite app_nil_r.
  - rewrite places_cons. cbn [existsb fst snd map process_from]. pose proof (one_item i m n O) as H. destruct (refused (m_type m) n i); [now rewrite H|].
    destruct H as (m1 & E & H). rewrite E. cbn [bind orb]. assert (m_type m1 = m_type m) as T by (destruct H as (T & _); destruct n; [lia|exact T]).
    specialize (IH m1 (S n) ltac:(lia)). rewrite T in IH. destruct (existsb _ (places (S n) l)); [exact IH|].
    destruct IH as (m2 & E2 & T2 & R & Op & I & L & A). pose proof (fun k => one_latest m m1 n i k H) as K. destruct H as (_ & R1 & O1 & I1 & L1 & _). exists m2.
    split; [exact E2|]. split; [exact T2|]. split; [rewrite R, R1, <- app_assoc; reflexivity|]. split; [congruence|]. split; [congruence|]. split; [congruence|].
    intros k. rewrite A, K. unfold givens_of. rewrite places_cons. cbn [map List.concat fst snd]. rewrite latest_app.
    destruct (latest k (List.concat (map _ (places (S n) l)))); reflexivity.
Qed.
Lemma places_from n l x : In x (places n l) -> n <= fst x.
Proof. destruct x as [j i]. intros H. apply in_combine_l, in_seq in H. cbn. lia. Qed.
Lemma all_items l m : Forall item_ok l ->
  if list_refused (m_type m) l then process_attributes m (map item_text l) = Panic
  else exists m', process_attributes m (map item_text l) = Ok m' /\ adds (m_type m) l m m'.
Proof.
  intros F. unfold process_attributes, list_refused, adds, last_given, givens. change (numbered l) with (places 0 l).
  destruct F as [|i l O F]; [exists m; cbn; now rewrite app_nil_r|]. rewrite places_cons. cbn [existsb map List.concat fst snd process_from style_at].
  pose proof (one_item i m 0 O) as H. destruct (refused (m_type m) 0 i); [now rewrite H|].
  destruct H as (m1 & E & H). rewrite E. cbn [bind orb].
  assert (m_type m1 = style_after (m_type m) (i :: l)) as T by (destruct H as (T & _); rewrite T; now destruct i).
  pose proof (more_items l F m1 1 (le_n 1)) as IH. rewrite T in IH.
  assert (existsb (fun x => refused (style_at (m_type m) (i :: l) (fst x)) (fst x) (snd x)) (places 1 l)
    = existsb (fun x => refused (style_after (m_type m) (i :: l)) (fst x) (snd x)) (places 1 l)) as ->.
  { assert (forall x, In x (places 1 l) -> style_at (m_type m) (i :: l) (fst x) = style_after (m_type m) (i :: l)) as P.
    { intros x X. apply places_from in X. destruct (fst x); [lia|reflexivity]. }
    revert P. generalize (places 1 l). intros q P. induction q as [|x q IHq]; [reflexivity|]. cbn [existsb]. rewrite (P x (or_introl eq_refl)), IHq; [reflexivity|].
    intros y Y. apply P. now right. }
  destruct (existsb _ (places 1 l)); [exact IH|].
  destruct IH as (m2 & E2 & T2 & R & Op & I & L & A). pose proof (fun k => one_latest m m1 0 i k H) as K. destruct H as (_ & R1 & O1 & I1 & L1 & _). exists m2.
  split; [exact E2|]. split; [exact T2|]. split; [rewrite R, R1, <- app_assoc; reflexivity|]. split; [congruence|]. split; [congruence|]. split; [congruence|].
  intros k. rewrite A, K.
  set (G := List.concat (map _ (places 1 l))).
  assert (G = givens_of (style_after (m_type m) (i :: l)) 1 l) as ->.
  { unfold G, givens_of. f_equal. apply map_ext_in. intros x X. apply places_from in X. now replace (style_at (m_type m) (i :: l) (fst x)) with (style_after (m_type m) (i :: l)) by (destruct (fst x); [lia|reflexivity]). }
  change (option_map snd (find (fun kv => beqb k (fst kv)) (rev (match given (m_type m) 0 i with Some kv => [kv] | None => [] end ++ givens_of (style_after (m_type m) (i :: l)) 1 l))))
    with (latest k (match given (m_type m) 0 i with Some kv => [kv] | None => [] end ++ givens_of (style_after (m_type m) (i :: l)) 1 l)).
  rewrite latest_app. destruct (latest k (givens_of _ 1 l)); reflexivity.
Qed.

(** ** Which items there are *)
Definition struck (p : bytes * bytes) (i : item) : item :=
  match i with
  | Quoted n v => if beqb (fst p) n && beqb (snd p) v then Bare [] else i
  | Bare _ => i
  end.
Lemma bare_inside p x a b rest : MetaProofs.okp p -> item_ok (Bare x) -> (match rest with c :: _ => c = "," | [] => True end) ->
  x = a ++ b -> b <> [] -> starts_with (pair_text p) (b ++ rest) = false.
Proof.
  intros (N & V) (F & _) R E B. destruct (starts_with _ _) eqn:S; [|reflexivity]. exfalso. apply MetaProofs.starts_with_true in S as (t & S).
  destruct p as [n v]. unfold pair_text in S. cbn [fst snd] in *. rewrite <- !app_assoc in S. cbn [app] in S.
  assert (~ In DQ b /\ ~ In "," b) as (D & C).
  { rewrite Forall_forall in F. split; intros H; assert (In _ x) as H' by (rewrite E; apply in_or_app; right; exact H); apply F in H'; tauto. }
  destruct (MetaProofs.not_in_name _ N) as (N1 & N2 & N3).
  (* the quote after the name stands at or behind the end of [b], where there is a comma first *)
  apply app_eq_app in S as (y & [(E1 & E2)|(E1 & E2)]).
  - destruct y as [|y0 y]; [|destruct y as [|y1 y]].
    + rewrite app_nil_r in E1. subst b. cbn [app] in E2. subst rest. discriminate R.
    + injection E2 as <- E2. subst rest. discriminate R.
    + injection E2 as _ <- _. apply D. rewrite E1. apply in_or_app. right. right. now left.
  - destruct rest as [|c rest]; [destruct y; discriminate E2|]. subst c. destruct y as [|y0 y]; [cbn in E2; discriminate E2|]. injection E2 as <- _.
    apply N3. rewrite E1. apply in_or_app. right. now left.
Qed.
Lemma skip_text pat u rest : (forall a b, u = a ++ b -> b <> [] -> starts_with pat (b ++ rest) = false) ->
  forall f, remove_all_fuel (List.length u + f) pat (u ++ rest) = u ++ remove_all_fuel f pat rest.
Proof.
  induction u as [|c u IH]; intros H f; [reflexivity|]. cbn [List.length Nat.add app remove_all_fuel].
  assert (starts_with pat (c :: u ++ rest) = false) as -> by (apply (H [] (c :: u) eq_refl); discriminate).
  rewrite IH; [reflexivity|]. intros a b -> B. now apply (H (c :: a) b).
Qed.
Definition unlike (p : bytes * bytes) (i : item) : Prop :=
  match i with Quoted n v => forall x, pair_text (n, v) = x ++ pair_text p -> p = (n, v) | Bare _ => True end.
Lemma remove_item p : MetaProofs.okp p -> forall l, Forall (fun i => item_ok i /\ unlike p i) l ->
  forall f, List.length (list_text l) < f -> remove_all_fuel f (pair_text p) (list_text l) = list_text (map (struck p) l).
Proof.
  intros P. assert (pair_text p <> []) as NE by (unfold pair_text; destruct (fst p); discriminate).
  assert (forall f i rest, item_ok i -> unlike p i -> (match rest with c :: _ => c = "," | [] => True end) ->
     List.length (item_text i) < f -> exists g, f <= g + List.length (item_text i) /\
     remove_all_fuel f (pair_text p) (item_text i ++ rest) = item_text (struck p i) ++ remove_all_fuel g (pair_text p) rest) as SEG.
  { intros f [n v|x] rest O U R F.
    - cbn [item_text struck unlike item_ok] in *. destruct (beqb (fst p) n && beqb (snd p) v) eqn:E.
      + apply (proj1 (MetaProofs.pair_eqb p (n, v))) in E as ->. destruct f; [lia|]. exists f. split; [destruct (pair_text (n, v)); [congruence|cbn; lia]|]. cbn [item_text app].
        destruct (pair_text (n, v) ++ rest) as [|c r] eqn:X; [destruct (pair_text (n, v)); [congruence|discriminate]|]. cbn [remove_all_fuel]. rewrite <- X.
        assert (starts_with (pair_text (n, v)) (pair_text (n, v) ++ rest) = true) as -> by (apply MetaProofs.starts_with_true; now exists rest).
        f_equal. rewrite skipn_app, skipn_all, Nat.sub_diag. reflexivity.
      + exists (f - List.length (pair_text (n, v))). split; [lia|]. cbn [item_text]. rewrite <- MetaProofs.skip_segment; [f_equal; lia|].
        intros a b A B r. destruct (starts_with (pair_text p) (b ++ r)) eqn:S; [|reflexivity]. pose proof (MetaProofs.inside p (n, v) a b r P O A B S) as ->. rewrite (U a A) in E.
        change (beqb (fst (n, v)) (fst (n, v)) && beqb (snd (n, v)) (snd (n, v)) = false) in E. rewrite (proj2 (MetaProofs.pair_eqb (n, v) (n, v)) eq_refl) in E. discriminate.
    - cbn [item_text struck] in *. exists (f - List.length x). split; [lia|]. rewrite <- skip_text; [f_equal; lia|]. intros a b A B. now apply (bare_inside p x a). }
  unfold list_text. induction 1 as [|i l (O & U) F IH]; intros f L; [destruct f; reflexivity|]. destruct l as [|i2 l].
  - cbn [map comma_list] in *. destruct (SEG f i [] O U Logic.I L) as (g & G & E). rewrite app_nil_r in E. rewrite E. destruct g; apply app_nil_r.
  - set (T := i2 :: l) in *. change (comma_list (map item_text (i :: T))) with (item_text i ++ "," :: comma_list (map item_text T)) in *.
    change (comma_list (map item_text (map (struck p) (i :: T)))) with (item_text (struck p i) ++ "," :: comma_list (map item_text (map (struck p) T))).
    rewrite app_length in L. cbn [List.length] in L.
    destruct (SEG f i ("," :: comma_list (map item_text T)) O U eq_refl) as (g & G & E); [lia|]. rewrite E. f_equal. destruct g; [lia|]. cbn [remove_all_fuel].
    assert (starts_with (pair_text p) ("," :: comma_list (map item_text T)) = false) as ->.
    { destruct (starts_with _ _) eqn:S; [|reflexivity]. apply MetaProofs.starts_with_true in S as [t S]. unfold pair_text in S. destruct P as [N _]. pose proof (MetaProofs.not_in_name _ N) as (_ & _ & N3).
      destruct (fst p) as [|c n]; [destruct N as [[] _]; reflexivity|]. injection S as <- _. destruct N3. now left. }
    f_equal. apply IH. lia.
Qed.
Definition emptied (i : item) : item := match i with Quoted _ _ => Bare [] | b => b end.
Lemma struck_ok p i : item_ok i -> item_ok (struck p i).
Proof. destruct i as [n v|x]; cbn [struck]; [|auto]. intros O. destruct (_ && _); [|exact O]. split; [constructor|exact Logic.I]. Qed.
Lemma in_pairs n v l : In (Quoted n v) l <-> In (n, v) (pairs l).
Proof.
  unfold pairs. rewrite in_concat. split.
  - intros H. exists [(n, v)]. split; [|now left]. apply in_map_iff. now exists (Quoted n v).
  - intros (x & X & H). apply in_map_iff in X as ([n' v'|y] & <- & X); [|destruct H]. destruct H as [[= -> ->]|[]]. exact X.
Qed.
Lemma remove_items l0 ps : Forall item_ok l0 -> apart (pairs l0) -> incl ps (pairs l0) -> forall l, Forall item_ok l -> (forall n v, In (Quoted n v) l -> In (n, v) (pairs l0)) ->
  fold_left (fun s q => remove_all q s) (map pair_text ps) (list_text l) = list_text (fold_left (fun it p => map (struck p) it) ps l).
Proof.
  intros OK A. induction ps as [|p ps IH]; intros I l O Q; [reflexivity|]. cbn [map fold_left]. unfold remove_all. rewrite remove_item.
  - apply IH; [intros x X; apply I; now right| |].
    + apply Forall_forall. intros x X. apply in_map_iff in X as (y & <- & Y). apply struck_ok. rewrite Forall_forall in O. now apply O.
    + intros n v H. apply in_map_iff in H as ([n' v'|y] & E & Y); [|discriminate E]. cbn [struck] in E. destruct (_ && _); [discriminate E|]. injection E as <- <-. now apply Q.
  - assert (In p (pairs l0)) as Ip by (apply I; now left). destruct p as [n v]. apply in_pairs in Ip. rewrite Forall_forall in OK. exact (OK _ Ip).
  - apply Forall_forall. intros x X. split; [rewrite Forall_forall in O; now apply O|]. destruct x as [n v|y]; [|exact Logic.I]. intros z E.
    apply (A p (n, v) z); [apply I; now left|now apply Q|exact E].
  - lia.
Qed.
Lemma all_struck ps : forall l, (forall n v, In (Quoted n v) l -> In (n, v) ps) -> fold_left (fun it p => map (struck p) it) ps l = map emptied l.
Proof.
  induction ps as [|p ps IH]; intros l Q; cbn [fold_left].
  - rewrite <- (map_id l) at 1. apply map_ext_in. intros [n v|x] X; [destruct (Q n v X)|reflexivity].
  - rewrite IH.
    + rewrite map_map. apply map_ext. intros [n v|x]; cbn [struck emptied]; [|reflexivity]. now destruct (_ && _).
    + intros n v H. apply in_map_iff in H as ([n' v'|y] & E & Y); [|discriminate E]. cbn [struck] in E. destruct (_ && _) eqn:B; [discriminate E|]. injection E as -> ->.
      destruct (Q n v Y) as [->|]; [|assumption]. cbn [fst snd] in B. rewrite !ScanLemmas.beqb_refl in B. discriminate.
Qed.
Lemma split_bare l : Forall (fun x => ~ In "," x) l -> l <> [] -> split_on (fun c => Ascii.eqb c ",") (comma_list l) = l.
Proof.
  assert (forall x r, ~ In "," x -> split_on (fun c => Ascii.eqb c ",") (x ++ "," :: r) = x :: split_on (fun c => Ascii.eqb c ",") r) as C.
  { induction x as [|c x IH]; intros r H; [reflexivity|]. cbn [app split_on]. rewrite (proj2 (Ascii.eqb_neq c ",")) by (intros ->; apply H; now left). rewrite IH; [reflexivity|]. intros I. apply H. now right. }
  assert (forall x, ~ In "," x -> split_on (fun c => Ascii.eqb c ",") x = [x]) as D.
  { induction x as [|c x IH]; intros H; [reflexivity|]. cbn [split_on]. rewrite (proj2 (Ascii.eqb_neq c ",")) by (intros ->; apply H; now left). rewrite IH; [reflexivity|]. intros I. apply H. now right. }
  induction 1 as [|x l X F IH]; intros N; [now destruct N|]. destruct l as [|y l]; [now apply D|].
  change (comma_list (x :: y :: l)) with (x ++ "," :: comma_list (y :: l)). rewrite C by exact X. f_equal. apply IH. discriminate.
Qed.

(** the matches of the quoted pattern *)
Lemma chars_head c s : exists y ys, chars (c :: s) = (c :: y) :: ys.
Proof. cbn [chars]. destruct (chars s) as [|[|d w] ws]; [now exists [], []|now exists [], []|]. destruct (is_cont d); [now exists (d :: w), ws|now exists [], ((d :: w) :: ws)]. Qed.
Lemma chars_app x s : (match s with d :: _ => is_cont d = false | [] => True end) -> chars (x ++ s) = chars x ++ chars s.
Proof.
  intros H. induction x as [|c x IH]; [reflexivity|]. cbn [app chars]. rewrite IH. destruct (chars x) as [|[|d w] ws] eqn:E; cbn [app].
  - destruct s as [|d s]; [reflexivity|]. destruct (chars_head d s) as (y & ys & E2). rewrite E2. now rewrite H.
  - destruct x as [|d x]; [discriminate E|]. destruct (chars_head d x) as (y & ys & E2). rewrite E2 in E. discriminate E.
  - destruct (is_cont d); reflexivity.
Qed.
Lemma bare_run w x f word r : ~ In DQ (unchars x) -> re_named_quoted w (List.length x + S f) word (x ++ [","] :: r) = re_named_quoted w f [] r.
Proof.
  intros H. revert word. induction x as [|ch x IH]; intros word.
  - cbn [List.length Nat.add app]. rewrite MetaProofs.word_step by (split; [reflexivity|discriminate]). reflexivity.
  - apply MetaProofs.unchars_dq in H as (H1 & H2). specialize (IH H2). cbn [List.length Nat.add app re_named_quoted].
    assert ((if char_word w ch then re_named_quoted w (List.length x + S f) (ch :: word) (x ++ [","] :: r) else re_named_quoted w (List.length x + S f) [] (x ++ [","] :: r)) = re_named_quoted w f [] r) as E
      by (destruct (char_word w ch); apply IH).
    destruct ch as [|c ch]; [exact E|]. destruct ch; [|destruct c as [[] [] [] [] [] [] [] []]; exact E].
    assert (exists q t, x ++ [","] :: r = q :: t /\ q <> [DQ]) as (q & t & E2 & Q).
    { destruct x as [|q x]; [exists [","], r; split; [reflexivity|discriminate]|]. exists q, (x ++ [","] :: r). split; [reflexivity|]. intros ->. apply H2. now left. }
    rewrite E2 in *. destruct q as [|q0 q]; [destruct c as [[] [] [] [] [] [] [] []]; exact E|]. destruct q; [|destruct c as [[] [] [] [] [] [] [] []]; exact E].
    assert (Ascii.eqb q0 DQ = false) as -> by (apply Ascii.eqb_neq; intros ->; now apply Q).
    destruct c as [[] [] [] [] [] [] [] []]; solve [exact E|apply IH].
Qed.
Lemma chars_length x : List.length (chars x) <= List.length x.
Proof.
  induction x as [|c x IH]; [cbn; lia|]. cbn [chars List.length]. destruct (chars x) as [|[|d w] ws]; cbn [List.length] in *; try lia. destruct (is_cont d); cbn [List.length] in *; lia.
Qed.
Lemma text_start l : Forall item_ok l -> match list_text l with c :: _ => is_cont c = false | [] => True end.
Proof.
  intros [|i r O F]; [exact Logic.I|]. assert (match item_text i with c :: _ => is_cont c = false | [] => True end) as K.
  { destruct i as [n v|x]; [|apply O]. cbn [item_text item_ok] in *. destruct O as (N & _). pose proof (MetaProofs.name_chars _ N) as C.
    destruct n as [|c n]; [reflexivity|]. apply (C c). now left. }
  unfold list_text. cbn [map]. destruct r as [|y r]; [exact K|]. cbn [map comma_list]. destruct (item_text i); [reflexivity|exact K].
Qed.
Lemma item_matches w l : Forall item_ok l -> forall f, List.length (list_text l) < f -> re_named_quoted w f [] (chars (list_text l)) = map pair_text (pairs l).
Proof.
  induction 1 as [|i l O F IH]; intros f L; [destruct f; reflexivity|]. destruct l as [|q l].
  - unfold list_text, pairs in *. cbn [map comma_list List.concat app] in *. destruct i as [n v|x]; cbn [item_text map app] in *.
    + destruct (MetaProofs.one_match w (n, v) [] f O Logic.I) as (g & _ & E); [lia|]. rewrite app_nil_r in E. rewrite E. destruct g; reflexivity.
    + apply MetaProofs.no_quoted. rewrite DocGraph.unchars_chars. intros H. destruct O as (B & _). rewrite Forall_forall in B. apply B in H. tauto.
  - assert (list_text (i :: q :: l) = item_text i ++ "," :: list_text (q :: l)) as E0 by reflexivity. rewrite E0 in *. rewrite app_length in L. cbn [List.length] in L.
    assert (chars ("," :: list_text (q :: l)) = [","] :: chars (list_text (q :: l))) as E1 by (apply MetaProofs.chars_ascii, text_start, F).
    destruct i as [n v|x]; cbn [item_text] in *.
    + destruct (MetaProofs.one_match w (n, v) ("," :: list_text (q :: l)) f O eq_refl) as (g & G & E); [lia|]. rewrite E.
      change (pairs (Quoted n v :: q :: l)) with ((n, v) :: pairs (q :: l)). cbn [map]. f_equal. rewrite E1.
      destruct g; [lia|]. rewrite MetaProofs.word_step by (split; [reflexivity|discriminate]). change (is_ascii_alnum "," || Ascii.eqb "," "_") with false. cbv iota. apply IH. lia.
    + rewrite chars_app by reflexivity. rewrite E1. change (pairs (Bare x :: q :: l)) with (pairs (q :: l)). pose proof (chars_length x) as Lx.
      replace f with (List.length (chars x) + S (f - List.length (chars x) - 1)) by lia. rewrite bare_run.
      * apply IH. lia.
      * rewrite DocGraph.unchars_chars. intros H. destruct O as (B & _). rewrite Forall_forall in B. apply B in H. tauto.
Qed.
Lemma item_extracted w l : items_ok l -> l <> [] -> extract_attributes w (list_text l) = map item_text (order l).
Proof.
  intros (OK & A) N. unfold extract_attributes. rewrite item_matches by (auto; lia). unfold order. rewrite map_app, map_map. f_equal.
  - rewrite (remove_items l) by (auto using incl_refl; intros n v H; now apply in_pairs). rewrite all_struck by (intros n v H; now apply in_pairs).
    unfold list_text. change (map (fun i => match i with Quoted _ _ => Bare [] | b => b end) l) with (map emptied l). rewrite split_bare; [reflexivity| |].
    + apply Forall_forall. intros x X. apply in_map_iff in X as (y & <- & Y). apply in_map_iff in Y as (z & <- & Z). destruct z as [n v|b]; [intros []|]. cbn [emptied item_text].
      intros H. rewrite Forall_forall in OK. destruct (OK _ Z) as (B & _). rewrite Forall_forall in B. apply B in H. tauto.
    + destruct l; [now destruct N|discriminate].
Qed.
Lemma order_ok l : Forall item_ok l -> Forall item_ok (order l).
Proof.
  intros F. unfold order. rewrite Forall_forall in *. intros x X. apply in_app_or in X as [X|X]; apply in_map_iff in X as (y & <- & Y).
  - destruct y as [n v]. apply in_pairs in Y. exact (F _ Y).
  - destruct y as [n v|b]; [split; [constructor|exact Logic.I]|]. exact (F _ Y).
Qed.
Lemma list_meant w l m : items_ok l -> l <> [] -> attributes m l (process_attributes m (extract_attributes w (list_text l))).
Proof. intros O N. unfold attributes. rewrite (item_extracted w l O N). apply all_items, order_ok, O. Qed.

(** ** The places where lists are read *)
Lemma new_list w t l : items_ok l -> l <> [] -> ttype t = TElementAttributes -> lexeme t = bs "[" ++ list_text l ++ bs "]" ->
  attributes (mkMeta [] [] [] false None (token_locations t)) l (new_block_meta_from_token w t).
Proof.
  intros O N T L. unfold new_block_meta_from_token. rewrite T, L, MetaProofs.lexeme_inner by apply text_start, O. cbn [bind]. now apply list_meant.
Qed.
Lemma add_list w m t l : items_ok l -> l <> [] -> ttype t = TElementAttributes -> lexeme t = bs "[" ++ list_text l ++ bs "]" ->
  attributes m l (add_metadata_from_token w m t).
Proof.
  intros O N T L. unfold add_metadata_from_token. rewrite T, L, MetaProofs.lexeme_inner by apply text_start, O. cbn [bind]. now apply list_meant.
Qed.
Lemma span_bracket target r : ~ In "[" target -> span_until (target ++ "[" :: r) = List.length target.
Proof.
  induction target as [|c s IH]; intros H; [reflexivity|]. cbn [app span_until List.length].
  rewrite (proj2 (Ascii.eqb_neq c "[")) by (intros ->; apply H; now left). f_equal. apply IH. intros I. apply H. now right.
Qed.
Lemma directive_list w t target l : items_ok l -> l <> [] -> ~ In "[" target -> (match target with c :: _ => is_cont c = false | [] => True end) ->
  directive (ttype t) <> [] -> token_text t = directive (ttype t) ++ target ++ bs "[" ++ list_text l ++ bs "]" ->
  read_as target l (target_and_attrs_from_token w t).
Proof.
  intros O N B S D X. unfold target_and_attrs_from_token. rewrite X.
  assert (forall pre, slice (pre ++ target ++ bs "[" ++ list_text l ++ bs "]") (List.length pre) (List.length (pre ++ target ++ bs "[" ++ list_text l ++ bs "]"))
     = (Ok (target ++ bs "[" ++ list_text l ++ bs "]") : result bytes)) as P.
  { intros pre. rewrite ScriptWords.slice_tail; [reflexivity|]. destruct target; [reflexivity|exact S]. }
  set (rest := target ++ bs "[" ++ list_text l ++ bs "]") in *.
  assert ((match ttype t with
     | TBlockImageMacro => slice (directive (ttype t) ++ rest) 7 (List.length (directive (ttype t) ++ rest))
     | TInlineImageMacro => slice (directive (ttype t) ++ rest) 6 (List.length (directive (ttype t) ++ rest))
     | TInclude => slice (directive (ttype t) ++ rest) 9 (List.length (directive (ttype t) ++ rest))
     | _ => Panic
     end) = (Ok rest : result bytes)) as ->.
  { destruct (ttype t); try (exfalso; now apply D); cbn [directive]; exact (P _). }
  cbn [bind]. subst rest. change (bs "[" ++ list_text l ++ bs "]") with ("[" :: list_text l ++ ["]"]). rewrite span_bracket by exact B. rewrite firstn_app, firstn_all, Nat.sub_diag, app_nil_r.
  replace (List.length (target ++ "[" :: list_text l ++ ["]"]) <? 1) with false by (symmetry; apply Nat.ltb_ge; rewrite app_length; cbn; lia).
  pose proof (ScriptWords.slice_mid (E := error) (target ++ ["["]) (list_text l) ["]"]) as M. rewrite <- app_assoc in M. cbn [app] in M.
  replace (List.length (target ++ "[" :: list_text l ++ ["]"]) - 1) with (List.length (target ++ ["["]) + List.length (list_text l)) by (rewrite !app_length; cbn; rewrite app_length; cbn; lia).
  replace (List.length target + 1) with (List.length (target ++ ["["])) by (rewrite app_length; reflexivity).
  rewrite M; [|pose proof (text_start l (proj1 O)) as K; destruct (list_text l); [reflexivity|exact K]|reflexivity]. cbn [bind].
  pose proof (list_meant w l (mkMeta [] [] [] true None []) O N) as A. unfold read_as. destruct (list_text l) as [|c r]; [reflexivity|].
  unfold attributes in *. cbn [m_type] in *. destruct (list_refused None (order l)); [now rewrite A|]. destruct A as (m & -> & Q). exists m. split; [reflexivity|exact Q].
Qed.

(** ** Attributes in quotes move the others *)
Lemma place_moved : exists l, items_ok l /\ nth_error l 0 = Some (Bare (bs "source"))
  /\ forall w, exists m, new_block_meta_from_token w (mkTok TElementAttributes (bs "[" ++ list_text l ++ bs "]") None 1 1 1 []) = Ok m /\ m_type m = None.
Proof.
  set (l := [Bare (bs "source"); Bare (bs "ruby"); Quoted (bs "id") (bs "x")]).
  assert (items_ok l) as O.
  { split; [|intros p q x [<-|[]] [<-|[]] _; reflexivity]. repeat apply Forall_cons; try apply Forall_nil.
    - split; [repeat apply Forall_cons; try apply Forall_nil; repeat split; discriminate|reflexivity].
    - split; [repeat apply Forall_cons; try apply Forall_nil; repeat split; discriminate|reflexivity].
    - split; (split; [|try reflexivity]); try discriminate; repeat apply Forall_cons; try apply Forall_nil; try (repeat split; discriminate); left; reflexivity. }
  exists l. split; [exact O|]. split; [reflexivity|]. intros w.
  pose proof (new_list w (mkTok TElementAttributes (bs "[" ++ list_text l ++ bs "]") None 1 1 1 []) l O ltac:(discriminate) eq_refl eq_refl) as A.
  unfold attributes in A. cbn [m_type] in A. assert (list_refused None (order l) = false) as R by (vm_compute; reflexivity). rewrite R in A.
  destruct A as (m & E & T & _). exists m. split; [exact E|]. rewrite T. vm_compute. reflexivity.
Qed.
