(** * Scripts: how the blocks of a page become a tree *)
From Verif Require Import Base World Location Token Meta Inline Block Asg SpecScan SpecLex SpecDoc SpecArticle GraphLemmas TreeInd ArticleGraph
  SpecScript.
Local Open Scope char_scope.
Local Open Scope nat_scope.
Local Arguments reconcile : simpl never.
Local Arguments last_opt : simpl never.
Local Arguments takes_block : simpl never.

(** ** Blocks without locations *)
Lemma unplaced_consolidate b : unplaced (consolidate_locations b) = unplaced b.
Proof.
  induction b as [h m k loc IH] using block_ind'.
  assert (map unplaced (map consolidate_locations k) = map unplaced k) as E.
  { rewrite map_map. apply map_ext_in. now apply Forall_forall. }
  destruct h; cbn [consolidate_locations unplaced]; try (now rewrite E); try reflexivity; destruct (last_locs k); reflexivity.
Qed.
Lemma takes_unplaced b x : takes_block (unplaced b) (unplaced x) = takes_block b x.
Proof. destruct b as [[] ? ? ?], x as [[] ? ? ?]; reflexivity. Qed.
Lemma is_section_unplaced b : is_section (unplaced b) = is_section b.
Proof. now destruct b as [[] ? ? ?]. Qed.

(** tables hold cells *)
Definition tidy_head (h : head) (k : list block) : bool := match h with HParent PTable _ _ _ => forallb is_cell k | _ => true end.
Fixpoint tidy (b : block) : bool := match b with Blk h _ k _ => tidy_head h k && forallb tidy k end.
Lemma is_cell_unplaced b : is_cell (unplaced b) = is_cell b.
Proof. now destruct b as [[] ? ? ?]. Qed.
Lemma tidy_unplaced b : tidy (unplaced b) = tidy b.
Proof.
  induction b as [h m k loc IH] using block_ind'. cbn. f_equal.
  - destruct h as [| | | | | | | |[]|]; try reflexivity. cbn. clear IH. induction k as [|x k IH]; [reflexivity|]. cbn. now rewrite is_cell_unplaced, IH.
  - induction IH as [|x l E _ IHl]; [reflexivity|]. cbn. now rewrite E, IHl.
Qed.
Lemma tidy_consolidate b : tidy (consolidate_locations b) = tidy b.
Proof. rewrite <- tidy_unplaced, unplaced_consolidate. apply tidy_unplaced. Qed.
(** ** Pushing a section *)
Lemma push_block_unplaced b s : tidy (bpush (unplaced b) (unplaced s)) = true -> is_section s = true -> takes_block b s = true ->
  exists b', push_block b s = Ok b' /\ unplaced b' = bpush (unplaced b) (unplaced s).
Proof.
  induction b as [h m k loc IH] using block_ind'. intros T S K.
  assert (forall k', unplaced (consolidate_locations (Blk h m k' loc))
                     = Blk (unplaced_head h) (option_map unplaced_meta m) (map unplaced k') []) as C
    by (intros k'; now rewrite unplaced_consolidate).
  assert (is_list_item s = false) as Nl by (now destruct s as [[] ? ? ?]).
  destruct h; cbn [push_block]; try discriminate K.
  - (* section *)
    rewrite S. cbn [unplaced unplaced_head bpush]. rewrite last_opt_map.
    destruct (last_opt k) as [x|] eqn:L; cbn [option_map].
    + rewrite takes_unplaced. destruct (takes_block x s) eqn:X.
      * apply last_opt_inv in L as (k0 & ->). rewrite upd_last_snoc.
        apply Forall_app in IH as [_ IH]. inversion IH as [|? ? Hx _]. subst.
        assert (tidy (bpush (unplaced x) (unplaced s)) = true) as T'.
        { cbn [unplaced unplaced_head bpush] in T. rewrite last_opt_map, last_opt_snoc in T. cbn [option_map] in T. rewrite takes_unplaced, X, map_app in T. cbn [map] in T.
          rewrite upd_last'_snoc in T. cbn [tidy] in T. apply andb_prop in T as [_ T]. rewrite forallb_app in T. apply andb_prop in T as [_ T]. cbn [forallb] in T.
          now apply andb_prop in T as [T _]. }
        clear T. rename T' into T. destruct (Hx T S X) as (y & Ey & By). rewrite Ey. cbn [bind].
        eexists. split; [reflexivity|]. rewrite C. cbn [unplaced_head]. rewrite !map_app. cbn [map]. now rewrite upd_last'_snoc, By.
      * cbn [bind]. eexists. split; [reflexivity|]. rewrite C, map_app. reflexivity.
    + cbn [bind]. eexists. split; [reflexivity|]. rewrite C, map_app. reflexivity.
  - unfold takes_block in K. cbn [b_head] in K. congruence.
  - cbn [bind]. eexists. split; [reflexivity|]. rewrite C, map_app. reflexivity.
  - unfold takes_block in K. cbn [b_head] in K. destruct s as [[] ? ? ?]; discriminate.
  - cbn [bind]. eexists. split; [reflexivity|]. rewrite C, map_app. reflexivity.
  - rewrite Nl. destruct n; cbn [parent_name_beq andb];
      try (exfalso; cbn [unplaced unplaced_head bpush tidy tidy_head] in T; rewrite forallb_app in T; cbn [forallb] in T; rewrite is_cell_unplaced in T;
           now destruct s as [[] ? ? ?]; rewrite ?andb_false_r in T);
      cbn [bind]; eexists; (split; [reflexivity|]); rewrite C, map_app; reflexivity.
Qed.

(** ** The outline *)
Definition both {A} := map (@pair bool A true).
Lemma snd_both (l : list block) : map snd (both l) = l.
Proof. unfold both. rewrite map_map. apply map_id. Qed.
Lemma split_both lv (l : list block) :
  split_while (beneath lv) (both l) = (both (fst (split_while (under lv) l)), both (snd (split_while (under lv) l))).
Proof.
  unfold both. induction l as [|b l IH]; [reflexivity|]. cbn [map split_while]. unfold beneath at 1. cbn [fst snd andb].
  destruct (under lv b); [|reflexivity]. rewrite IH. destruct (split_while (under lv) l). reflexivity.
Qed.
Lemma shelve_both l : shelve (both l) = both (nest l).
Proof.
  induction l as [|b l IH]; [reflexivity|]. destruct b as [[i t lv| | | | | | | | | ] m k loc];
    cbn [both map shelve nest] in *; fold (@both block) in *; rewrite ?IH; try reflexivity.
  change (map (pair true) (nest l)) with (both (nest l)). rewrite split_both. destruct (split_while (under lv) (nest l)) as [mine rest].
  cbn [fst snd]. rewrite snd_both. reflexivity.
Qed.
Lemma split_loose lv a b r : split_while (beneath lv) (a ++ (false, b) :: r)
  = (fst (split_while (beneath lv) a), snd (split_while (beneath lv) a) ++ (false, b) :: r).
Proof.
  induction a as [|x a IH]; [reflexivity|]. cbn [app split_while]. destruct (beneath lv x); [|reflexivity]. rewrite IH.
  now destruct (split_while (beneath lv) a).
Qed.
Lemma shelve_loose a b r : is_section b = false -> shelve (a ++ (false, b) :: r) = shelve a ++ (false, b) :: shelve r.
Proof.
  intros S. induction a as [|[o x] a IH].
  - cbn [app shelve]. destruct b as [[] m k loc]; try discriminate; reflexivity.
  - cbn [app]. destruct x as [[i t lv| | | | | | | | | ] m k loc]; cbn [shelve]; rewrite IH; try reflexivity.
    rewrite split_loose. destruct (split_while (beneath lv) (shelve a)). reflexivity.
Qed.
Lemma outline_loose a b : is_section b = false -> outline (a ++ [(false, b)]) = outline a ++ [b].
Proof. intros S. unfold outline. rewrite shelve_loose by assumption. now rewrite map_app. Qed.
Lemma loose_split (l : list (bool * block)) :
  (exists k, l = both k) \/ (exists a b k, l = a ++ (false, b) :: both k).
Proof.
  induction l as [|[o b] l IH]; [left; now exists []|]. destruct IH as [(k & ->)|(a & c & k & ->)].
  - destruct o; [left; now exists (b :: k)|right; now exists [], b, k].
  - right. now exists ((o, b) :: a), c, k.
Qed.

Lemma clear_both k : forall l, clear l (both k) = true -> subsections_clear l k.
Proof.
  unfold both. induction k as [|b k IH]; intros l H; [exact I|]. destruct b as [[i t lv| | | | | | | | | ] m ks loc];
    cbn [map clear subsections_clear] in *; try (apply IH, H); try (apply IH; now apply andb_prop in H).
  apply andb_prop in H as [H1 H2]. split; [|now apply IH].
  destruct k as [|c k]; [exact I|]. cbn [map] in H1. destruct c as [[] ? ? ?]; try exact I. now apply Nat.leb_le.
Qed.
Definition sectioned (l : list (bool * block)) : Prop := Forall (fun x => is_section (snd x) = true -> fst x = true) l.
Lemma clear_loose a b r : is_section b = false -> forall l, clear l (a ++ (false, b) :: r) = true ->
  match b, r with Blk (HParent _ _ _ _) _ _ _, (_, Blk (HSection _ _ n) _ _ _) :: _ => n = 0 | _, _ => True end /\ clear 0 r = true.
Proof.
  intros S. induction a as [|[o x] a IH]; intros l H.
  - cbn [app] in H. destruct b as [[] m k loc]; try discriminate; cbn [clear] in H; apply andb_prop in H as [H1 H2]; (split; [|assumption]);
      try exact I. destruct r as [|[o [[] ? ? ?]] r]; try exact I. apply Nat.leb_le in H1. lia.
  - cbn [app] in H. destruct x as [[] m k loc]; cbn [clear] in H; try (apply andb_prop in H as [_ H]); now apply IH in H.
Qed.

Definition settled (x : bool * block) : Prop :=
  flat_head (snd x) /\ (forall n, section_level (snd x) = Some n -> 1 <= n /\ fst x = true) /\ tidy (snd x) = true.
Definition flat (l : list (bool * block)) : Prop := Forall settled l.
Lemma flat_app a b : flat (a ++ b) <-> flat a /\ flat b.
Proof. apply Forall_app. Qed.

Lemma outline_push i t lv me leaves pre : Forall (fun b => is_section b = false) leaves ->
  flat (pre ++ (true, Blk (HSection i t lv) me [] []) :: both leaves) ->
  clear 0 (pre ++ (true, Blk (HSection i t lv) me [] []) :: both leaves) = true ->
  outline (pre ++ (true, Blk (HSection i t lv) me [] []) :: both leaves)
  = push_pure (outline pre) (Blk (HSection i t lv) me leaves []).
Proof.
  intros Hl F C. set (s0 := Blk (HSection i t lv) me [] []) in *.
  apply flat_app in F as [F F']. inversion F' as [|? ? (_ & F1 & _) _]. subst. destruct (F1 lv eq_refl) as [Lv _].
  assert (forall k, flat (both k) -> subsections_clear 0 (k ++ s0 :: leaves) ->
          outline (both k ++ (true, s0) :: both leaves) = push_pure (nest k) (Blk (HSection i t lv) me leaves [])) as N.
  { intros k Fk Ck. replace (both k ++ (true, s0) :: both leaves) with (both (k ++ s0 :: leaves))
      by (unfold both; rewrite map_app; reflexivity).
    unfold outline. rewrite shelve_both, snd_both. apply nest_push; try assumption.
    - apply Forall_forall. intros x Hx. unfold flat in Fk. rewrite Forall_forall in Fk.
      destruct (Fk (true, x)) as (H & _); [|exact H]. unfold both. now apply in_map.
    - apply Forall_forall. intros x Hx n Hn. unfold flat in Fk. rewrite Forall_forall in Fk.
      destruct (Fk (true, x)) as (_ & H & _); [unfold both; now apply in_map|]. now apply H. }
  destruct (loose_split pre) as [(k & ->)|(a & b & k & ->)].
  - rewrite N; [|assumption|apply clear_both; unfold both; now rewrite map_app]. unfold outline. now rewrite shelve_both, snd_both.
  - apply flat_app in F as [Fa F]. inversion F as [|? ? (B1 & B2 & B3) Fk]. subst. cbn [fst snd] in *.
    assert (is_section b = false) as Sb.
    { destruct b as [[] m ks loc]; try reflexivity. destruct (B2 level eq_refl) as [_ X]. discriminate X. }
    rewrite <- app_assoc in *. cbn [app] in *. destruct (clear_loose _ _ _ Sb _ C) as [C1 C2].
    assert (subsections_clear 0 (k ++ s0 :: leaves)) as Ck.
    { apply clear_both. unfold both. rewrite map_app. exact C2. }
    unfold outline. rewrite !shelve_loose by assumption. rewrite !map_app. cbn [map]. fold (outline (both k ++ (true, s0) :: both leaves)).
    cbn [snd]. rewrite (N k Fk Ck). rewrite shelve_both, snd_both.
    change (map snd (shelve a) ++ b :: nest k) with (map snd (shelve a) ++ [b] ++ nest k). rewrite push_app by discriminate. f_equal.
    destruct (nest k) as [|y q] eqn:En.
    + apply nest_nil in En. subst k. cbn [app both map] in C1. unfold s0 in C1.
      unfold push_pure at 2. change ([b] ++ []) with ([] ++ [b]). rewrite last_opt_snoc.
      replace (takes_block b (Blk (HSection i t lv) me leaves [])) with false; [reflexivity|]. symmetry.
      destruct B1 as (F4 & F5 & _). destruct b as [[] m ks loc]; try discriminate; try reflexivity. lia.
    + cbn [app]. now rewrite (push_cons b (y :: q)) by discriminate.
Qed.
Lemma clear_prefix x y : forall l, clear l (x ++ y) = true -> clear l x = true.
Proof.
  induction x as [|[o b] x IH]; intros l; [reflexivity|]. cbn [app]. destruct b as [[] m k loc]; cbn [clear]; eauto;
    rewrite !andb_true_iff; intros [H1 H2]; (split; [|eauto]); try reflexivity.
  destruct x as [|c x]; [reflexivity|]. exact H1.
Qed.

(** ** The page so far, and the section that is open *)
Definition plain_block (b : block) : Prop := is_section b = false.
Definition holds (bst bl : list block) (open : bool) (flow : list (bool * block)) : Prop :=
  (open = false /\ bst = [] /\ map unplaced bl = outline flow)
  \/ (open = true /\ exists s i t lv me pre leaves, bst = [s] /\ unplaced s = Blk (HSection i t lv) me leaves []
        /\ flow = pre ++ (true, Blk (HSection i t lv) me [] []) :: both leaves /\ Forall plain_block leaves
        /\ map unplaced bl = outline pre).

Lemma tidy_shelve l : Forall (fun x => tidy (snd x) = true) l -> Forall (fun x => tidy (snd x) = true) (shelve l).
Proof.
  induction 1 as [|[o b] l H _ IH]; [constructor|]. cbn [snd] in H.
  destruct (is_section b) eqn:S; [|destruct b as [[] m k loc]; try discriminate; cbn [shelve]; now constructor].
  destruct b as [[i t lv| | | | | | | | | ] m k loc]; try discriminate. cbn [shelve].
  pose proof (split_app (beneath lv) (shelve l)) as E. destruct (split_while (beneath lv) (shelve l)) as [mine rest]. cbn [fst snd] in E.
  rewrite E in IH. apply Forall_app in IH as [I1 I2]. constructor; [|assumption]. cbn [tidy tidy_head snd andb] in *.
  rewrite forallb_app, H. cbn. apply forallb_forall. intros x Hx. apply in_map_iff in Hx as (y & <- & Hy). rewrite Forall_forall in I1. auto.
Qed.
Lemma tidy_outline l : flat l -> Forall (fun b => tidy b = true) (outline l).
Proof.
  intros F. unfold outline. apply Forall_map. apply tidy_shelve. eapply Forall_impl; [|exact F]. intros x H. apply H.
Qed.

Lemma finish_section s bl flow a : holds [s] bl true flow -> a_blocks a = bl -> flat flow -> clear 0 flow = true ->
  exists a', asg_push_block a s = Ok a' /\ map unplaced (a_blocks a') = outline flow /\ a_header a' = a_header a.
Proof.
  intros [(E & _)|(_ & s' & i & t & lv & me & pre & leaves & E & Es & Ed & Hl & Hb)] Ea F C; [discriminate|].
  injection E as <-. subst flow bl. pose proof (tidy_outline _ F) as Fo. rewrite (outline_push i t lv me leaves pre Hl F C) in Fo |- *.
  apply flat_app in F as [F F']. inversion F' as [|? ? _ F'']. subst.
  unfold asg_push_block.
  assert (unplaced (consolidate_locations s) = Blk (HSection i t lv) me leaves []) as Ec by now rewrite unplaced_consolidate.
  assert (is_section (consolidate_locations s) = true) as Sc by (rewrite <- is_section_unplaced, Ec; reflexivity).
  rewrite Sc. unfold push_pure. rewrite <- Hb, last_opt_map.
  destruct (last_opt (a_blocks a)) as [x|] eqn:L; cbn [option_map].
  - rewrite <- Ec, takes_unplaced. destruct (takes_block x (consolidate_locations s)) eqn:T.
    + apply last_opt_inv in L as (k & L). rewrite L in Hb |- *. rewrite upd_last_snoc.
      assert (tidy (bpush (unplaced x) (unplaced (consolidate_locations s))) = true) as Tx.
      { rewrite <- Ec, <- Hb, map_app in Fo. cbn [map] in Fo. unfold push_pure in Fo. rewrite last_opt_snoc, takes_unplaced, T, upd_last'_snoc in Fo.
        apply Forall_app in Fo as [_ Fo]. now inversion Fo. }
      destruct (push_block_unplaced x (consolidate_locations s) Tx Sc T) as (y & Ey & By). rewrite Ey. cbn [bind].
      eexists. split; [reflexivity|]. cbn [a_blocks a_header]. rewrite !map_app. cbn [map]. rewrite upd_last'_snoc, By. auto.
    + cbn [bind]. eexists. split; [reflexivity|]. cbn [a_blocks a_header]. rewrite map_app. auto.
  - cbn [bind]. eexists. split; [reflexivity|]. cbn [a_blocks a_header]. rewrite map_app. cbn [map]. rewrite Ec. auto.
Qed.
(** a block outside of sections *)
Lemma push_loose b flow a : map unplaced (a_blocks a) = outline flow -> is_section b = false -> tidy b = true ->
  exists a', asg_push_block a b = Ok a' /\ map unplaced (a_blocks a') = outline (flow ++ [(false, unplaced b)])
    /\ a_header a' = a_header a.
Proof.
  intros Hb S T. unfold asg_push_block.
  replace (is_section (consolidate_locations b)) with false
    by (now rewrite <- is_section_unplaced, unplaced_consolidate, is_section_unplaced).
  cbn [bind].
  eexists. split; [reflexivity|]. cbn [a_blocks a_header a_ids]. rewrite outline_loose by now rewrite is_section_unplaced.
  rewrite map_app, Hb. cbn [map]. rewrite unplaced_consolidate. auto.
Qed.
(** a block in the open section *)
Lemma push_open s bl flow b : holds [s] bl true flow -> is_section b = false -> is_list_item b = false ->
  exists s', push_block s b = Ok s' /\ takes_block s b = true /\ holds [s'] bl true (flow ++ [(true, unplaced b)]).
Proof.
  intros [(E & _)|(_ & s' & i & t & lv & me & pre & leaves & E & Es & Ed & Hl & Hb)] S L; [discriminate|].
  injection E as <-. destruct s as [h m k loc]. cbn in Es. injection Es as Eh Em Ek. destruct h; try discriminate. injection Eh as -> <- ->.
  destruct (push_block_leaf (HSection i title lv) m k loc b S L) as (loc' & Eb); [discriminate|exact I|].
  exists (Blk (HSection i title lv) m (k ++ [b]) loc'). split; [exact Eb|]. split.
  - unfold takes_block. cbn. destruct b as [[] ? ? ?]; try discriminate; reflexivity.
  - right. split; [reflexivity|]. exists (Blk (HSection i title lv) m (k ++ [b]) loc'), i, (map unplaced_inline title), lv, me, pre, (leaves ++ [unplaced b]).
    split; [reflexivity|]. split; [cbn; rewrite Em, map_app, Ek; reflexivity|].
    split; [rewrite Ed, <- app_assoc; unfold both; rewrite map_app; reflexivity|]. split; [|assumption].
    apply Forall_app. split; [assumption|]. constructor; [|constructor]. unfold plain_block. now rewrite is_section_unplaced.
Qed.
