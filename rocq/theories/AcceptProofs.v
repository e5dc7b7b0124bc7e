(** * Lemmas: which attribute lists without quotes are accepted *)
From Verif Require Import Base World Location Token Meta SpecMeta SpecScan ScanLemmas SpecAttrs.
From Verif Require ScanLine AttrProofs MetaProofs ScriptDecor.
Local Open Scope char_scope.
Local Open Scope nat_scope.

Definition fine_head (x : bytes) : Prop := match x with c :: _ => is_cont c = false | [] => True end.
Lemma utf8_fine s : utf8 s -> fine_head s.
Proof. intros H. destruct (ScanLine.utf8_head s H) as [->|(x & r & -> & E)]; [exact Logic.I|exact E]. Qed.
Lemma later_heads s : forall a, utf8 (a ++ s) -> Forall fine_head (tl (fields s)).
Proof.
  induction s as [|c s IH]; intros a U; [constructor|]. unfold fields in *. cbn [split_on].
  assert (Forall fine_head (tl (split_on (fun c => Ascii.eqb c ",") s))) as T.
  { apply (IH (a ++ [c])). rewrite <- app_assoc. exact U. }
  destruct (Ascii.eqb c ",") eqn:E.
  - apply Ascii.eqb_eq in E as ->. cbn [tl]. assert (utf8 s) as V by (apply (ScanLine.utf8_after a "," s U); reflexivity).
    apply utf8_fine in V. destruct s as [|d s]; [repeat constructor|]. cbn [split_on] in *. destruct (Ascii.eqb d ","); [constructor; [exact Logic.I|exact T]|].
    destruct (split_on _ s) as [|y l]; (constructor; [exact V|]); [constructor|exact T].
  - destruct (split_on _ s) as [|y l]; [constructor|exact T].
Qed.
Lemma first_head s : utf8 s -> fine_head (hd [] (fields s)).
Proof.
  intros U. apply utf8_fine in U. unfold fields. destruct s as [|c s]; [exact Logic.I|]. cbn [split_on]. destruct (Ascii.eqb c ","); [exact Logic.I|].
  destruct (split_on _ s); exact U.
Qed.
Lemma all_heads s : utf8 s -> Forall fine_head (fields s).
Proof.
  intros U. pose proof (first_head s U) as H. pose proof (later_heads s [] U) as T. destruct (fields s) as [|x l]; [constructor|]. now constructor.
Qed.
Lemma fields_ne s : fields s <> [].
Proof. unfold fields. destruct s as [|c s]; [discriminate|]. cbn [split_on]. destruct (Ascii.eqb c ","); [discriminate|]. destruct (split_on _ s); discriminate. Qed.
Lemma fields_free s : Forall (fun x => ~ In "," x) (fields s).
Proof.
  unfold fields. induction s as [|c s IH]; [constructor; [intros []|constructor]|]. cbn [split_on]. destruct (Ascii.eqb c ",") eqn:E; [constructor; [intros []|exact IH]|].
  apply Ascii.eqb_neq in E. destruct (split_on _ s) as [|x l].
  - constructor; [|constructor]. intros [H|[]]. congruence.
  - inversion IH as [|x' l' A B]; subst. constructor; [|assumption]. intros [H|H]; [congruence|exact (A H)].
Qed.
Lemma fields_joined s : comma_list (fields s) = s.
Proof.
  unfold fields. induction s as [|c s IH]; [reflexivity|]. cbn [split_on]. pose proof (fields_ne s) as N. unfold fields in N.
  destruct (Ascii.eqb c ",") eqn:E.
  - apply Ascii.eqb_eq in E as ->. destruct (split_on _ s) as [|x l] eqn:Q; [congruence|]. cbn [comma_list] in *. rewrite IH. reflexivity.
  - destruct (split_on _ s) as [|x l] eqn:Q; [congruence|]. cbn [comma_list] in *. destruct l; rewrite <- IH; reflexivity.
Qed.
Definition bares (s : bytes) : list item := map Bare (fields s).
Lemma bares_text s : list_text (bares s) = s.
Proof. unfold list_text, bares. rewrite map_map. cbn [item_text]. rewrite map_id. apply fields_joined. Qed.
Lemma no_pairs l : pairs (map Bare l) = [].
Proof. induction l as [|x l IH]; [reflexivity|exact IH]. Qed.
Lemma bares_ok s : utf8 s -> ~ In DQ s -> ~ In NL s -> items_ok (bares s).
Proof.
  intros U D N. split.
  - unfold bares. apply Forall_map. pose proof (all_heads s U) as H. pose proof (fields_free s) as F. rewrite Forall_forall in *. intros x X. split; [|exact (H x X)].
    apply Forall_forall. intros c C. pose proof (MetaProofs.split_in _ _ _ X c C) as I. repeat split; intros ->; [exact (F x X C)|exact (D I)|exact (N I)].
  - unfold bares. rewrite no_pairs. intros p q x [].
Qed.
Lemma bares_order s : order (bares s) = bares s.
Proof. unfold order, bares. rewrite no_pairs, map_map. reflexivity. Qed.

(** the refused items of a list without quotes *)
Lemma later_refused st l : forall n, 3 <= n ->
  existsb (fun x => refused st (fst x) (snd x)) (AttrProofs.places n (map Bare l))
  = (match st with Some AQuote | Some AVerse | Some ALines => existsb nameless l | _ => false end).
Proof.
  induction l as [|x l IH]; intros n N; [destruct st as [[]|]; reflexivity|]. cbn [map]. rewrite AttrProofs.places_cons. cbn [existsb fst snd]. rewrite (IH (S n) ltac:(lia)).
  assert (refused st n (Bare x) = nameless x && match st with Some AQuote | Some AVerse | Some ALines => true | _ => false end) as ->.
  { unfold refused, nameless, named. destruct x as [|c x]; [reflexivity|]. destruct (parted (c :: x)) as [[k v]|]; [reflexivity|].
    destruct n as [|[|[|n]]]; try lia. cbn [Nat.eqb andb orb negb]. destruct st as [[]|]; reflexivity. }
  destruct st as [[]|]; rewrite ?andb_true_r, ?andb_false_r; reflexivity.
Qed.
Lemma two_refused st x y : st <> Some ALines ->
  refused st 1 (Bare x) = false /\ refused st 2 (Bare y) = false.
Proof.
  intros N. assert (forall n z, n = 1 \/ n = 2 -> refused st n (Bare z) = false) as H.
  { intros n z O. unfold refused, named. destruct z as [|c z]; [reflexivity|]. destruct (parted (c :: z)) as [[k v]|]; [reflexivity|].
    destruct O as [-> | ->]; cbn [Nat.eqb andb orb negb]; destruct st as [[]|]; try reflexivity; congruence. }
  split; apply H; auto.
Qed.
Lemma style_never l : style_after None (map Bare l) <> Some ALines.
Proof.
  destruct l as [|x l]; [discriminate|]. cbn [map style_after]. destruct (parted x) as [p|]; [discriminate|]. destruct (is_style x); [|discriminate].
  unfold style_of. destruct (beqb x (bs "source")); [discriminate|]. destruct (beqb x (bs "quote")); [discriminate|]. destruct (beqb x (bs "verse")); discriminate.
Qed.
Lemma first_style x l : (match style_after None (map Bare (x :: l)) with Some AQuote | Some AVerse => true | _ => false end) = beqb x (bs "quote") || beqb x (bs "verse").
Proof.
  cbn [map style_after]. destruct (beqb x (bs "quote")) eqn:Q; [apply ScanLemmas.beqb_eq in Q as ->; reflexivity|].
  destruct (beqb x (bs "verse")) eqn:V; [apply ScanLemmas.beqb_eq in V as ->; reflexivity|].
  destruct (parted x); [reflexivity|]. destruct (is_style x); [|reflexivity]. unfold style_of. rewrite Q, V. destruct (beqb x (bs "source")); reflexivity.
Qed.
Lemma overdone_refused s : list_refused None (bares s) = overdone s.
Proof.
  unfold list_refused, overdone, bares. destruct (fields s) as [|x l]; [reflexivity|].
  change (numbered (map Bare (x :: l))) with (AttrProofs.places 0 (map Bare (x :: l))). pose proof (style_never (x :: l)) as L. pose proof (first_style x l) as Q.
  set (st := style_after None (map Bare (x :: l))) in *.
  assert (existsb (fun x0 => refused (style_at None (map Bare (x :: l)) (fst x0)) (fst x0) (snd x0)) (AttrProofs.places 0 (map Bare (x :: l)))
    = refused None 0 (Bare x) || existsb (fun x0 => refused st (fst x0) (snd x0)) (AttrProofs.places 1 (map Bare l))) as ->.
  { cbn [map]. rewrite AttrProofs.places_cons. cbn [existsb fst snd style_at]. f_equal.
    assert (forall q, (forall y, In y q -> 1 <= fst y) -> existsb (fun x0 : nat * item => refused (style_at None (Bare x :: map Bare l) (fst x0)) (fst x0) (snd x0)) q
       = existsb (fun x0 => refused st (fst x0) (snd x0)) q) as E.
    { induction q as [|y q IH]; intros P; [reflexivity|]. cbn [existsb]. rewrite IH by (intros z Z; apply P; now right). f_equal.
      specialize (P y (or_introl eq_refl)). destruct (fst y); [lia|reflexivity]. }
    apply E. intros y Y. exact (AttrProofs.places_from 1 _ y Y). }
  f_equal.
  - unfold refused, nameless, named. destruct x as [|a x]; [reflexivity|]. destruct (parted (a :: x)) as [[k v]|]; [reflexivity|]. cbn [Nat.eqb andb negb]. now rewrite andb_false_r, orb_false_r.
  - rewrite <- Q. destruct l as [|y [|z l]].
    + cbn. now rewrite andb_false_r.
    + cbn [map skipn existsb]. rewrite AttrProofs.places_cons. cbn [existsb fst snd]. destruct (two_refused st y y L) as (-> & _). now rewrite andb_false_r.
    + cbn [map skipn]. rewrite !AttrProofs.places_cons. cbn [existsb fst snd]. destruct (two_refused st y z L) as (-> & ->). cbn [orb]. rewrite later_refused by lia.
      clearbody st. destruct st as [[]|]; try reflexivity. congruence.
Qed.
Lemma exactly w s t : utf8 s -> ~ In DQ s -> ~ In NL s -> ttype t = TElementAttributes -> lexeme t = bs "[" ++ s ++ bs "]" ->
  if overdone s then new_block_meta_from_token w t = Panic else exists m, new_block_meta_from_token w t = Ok m.
Proof.
  intros U D N T L. rewrite <- (bares_text s) in L. assert (bares s <> []) as B by (unfold bares; intros E; apply map_eq_nil in E; exact (fields_ne s E)).
  pose proof (AttrProofs.new_list w t (bares s) (bares_ok s U D N) B T L) as H. unfold attributes in H. cbn [m_type] in H. rewrite bares_order, overdone_refused in H.
  destruct (overdone s); [exact H|]. destruct H as (m & E & _). eauto.
Qed.
Lemma exactly_added w m s t : utf8 s -> ~ In DQ s -> ~ In NL s -> ttype t = TElementAttributes -> lexeme t = bs "[" ++ s ++ bs "]" ->
  m_type m = None -> if overdone s then add_metadata_from_token w m t = Panic else exists m', add_metadata_from_token w m t = Ok m'.
Proof.
  intros U D N T L Y. rewrite <- (bares_text s) in L. assert (bares s <> []) as B by (unfold bares; intros E; apply map_eq_nil in E; exact (fields_ne s E)).
  pose proof (AttrProofs.add_list w m t (bares s) (bares_ok s U D N) B T L) as H. unfold attributes in H. rewrite Y, bares_order, overdone_refused in H.
  destruct (overdone s); [exact H|]. destruct H as (m' & E & _). eauto.
Qed.
