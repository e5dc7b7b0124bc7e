(** * Articles: how pushed sections nest *)
From Verif Require Import Base World Location Token Meta Inline Block Asg SpecScan SpecDoc SpecArticle GraphLemmas TreeInd.
Local Open Scope char_scope.
Local Open Scope nat_scope.
Local Arguments reconcile : simpl never.
Local Arguments last_opt : simpl never.
Local Arguments takes_block : simpl never.

(** ** Blocks without locations *)
Lemma bare_consolidate b : bare (consolidate_locations b) = bare b.
Proof.
  induction b as [h m k loc IH] using block_ind'.
  assert (map bare (map consolidate_locations k) = map bare k) as E.
  { rewrite map_map. apply map_ext_in. now apply Forall_forall. }
  destruct h; cbn [consolidate_locations bare]; try (now rewrite E); try reflexivity; destruct (last_locs k); reflexivity.
Qed.
Lemma bare_idem_inline i : bare_inline (bare_inline i) = bare_inline i.
Proof.
  induction i as [v f l m loc o IH|v t l m loc IH|n k v loc|loc] using inline_ind'; cbn; try reflexivity; f_equal;
    rewrite map_map; apply map_ext_in; now apply Forall_forall.
Qed.
Lemma takes_bare b x : takes_block (bare b) (bare x) = takes_block b x.
Proof. destruct b as [[] ? ? ?], x as [[] ? ? ?]; reflexivity. Qed.
Lemma is_section_bare b : is_section (bare b) = is_section b.
Proof. now destruct b as [[] ? ? ?]. Qed.
Lemma last_opt_map {A B} (f : A -> B) l : last_opt (map f l) = option_map f (last_opt l).
Proof. unfold last_opt. rewrite <- map_rev. now destruct (rev l). Qed.

(** no reference among the inlines, no table *)
Definition tame_inline (i : inline) : bool := match i with IRef _ _ _ _ _ => false | _ => true end.
Definition tame_head (h : head) : bool :=
  forallb tame_inline (own_inlines h) && match h with HParent PTable _ _ _ => false | _ => true end.
Fixpoint tame (b : block) : bool := match b with Blk h _ k _ => tame_head h && forallb tame k end.
Lemma tame_bare b : tame (bare b) = tame b.
Proof.
  assert (forall l, forallb tame_inline (map bare_inline l) = forallb tame_inline l) as F.
  { induction l as [|i l IH]; [reflexivity|]. cbn. rewrite IH. now destruct i. }
  induction b as [h m k loc IH] using block_ind'. cbn. f_equal.
  - unfold tame_head. destruct h; cbn; rewrite ?F; reflexivity.
  - induction IH as [|x l E _ IHl]; [reflexivity|]. cbn. now rewrite E, IHl.
Qed.
Lemma tame_fixed ids b : tame b = true -> map_inlines (xref_standardize ids) b = b.
Proof.
  assert (forall l, forallb tame_inline l = true -> map (xref_standardize ids) l = l) as F.
  { induction l as [|i l IH]; [reflexivity|]. cbn. intros H. apply andb_prop in H as [H1 H2]. rewrite IH by assumption.
    destruct i; try reflexivity. discriminate. }
  induction b as [h m k loc IH] using block_ind'. cbn. intros H. apply andb_prop in H as [H1 H2]. f_equal.
  - apply andb_prop in H1 as [H1 _]. destruct h; cbn in *; rewrite ?F by assumption; reflexivity.
  - rewrite forallb_forall in H2. rewrite Forall_forall in IH. rewrite <- (map_id k) at 2. apply map_ext_in. auto.
Qed.

(** ** Pushing a section *)
Fixpoint bpush (b nb : block) : block :=
  match b with
  | Blk h m k loc =>
      Blk h m
        match h with
        | HSection _ _ _ =>
            match last_opt k with
            | Some x => if takes_block x nb then upd_last' (fun y => bpush y nb) k else k ++ [nb]
            | None => k ++ [nb]
            end
        | _ => k ++ [nb]
        end loc
  end.
Definition push_pure (l : list block) (s : block) : list block :=
  match last_opt l with
  | Some x => if takes_block x s then upd_last' (fun y => bpush y s) l else l ++ [s]
  | None => l ++ [s]
  end.
Lemma bpush_section i t lv m k loc s :
  bpush (Blk (HSection i t lv) m k loc) s = Blk (HSection i t lv) m (push_pure k s) loc.
Proof. reflexivity. Qed.

Lemma push_block_bare b s : tame b = true -> is_section s = true -> takes_block b s = true ->
  exists b', push_block b s = Ok b' /\ bare b' = bpush (bare b) (bare s).
Proof.
  induction b as [h m k loc IH] using block_ind'. intros T S K.
  assert (forall k', bare (consolidate_locations (Blk h m k' loc)) = Blk (bare_head h) m (map bare k') []) as C
    by (intros k'; now rewrite bare_consolidate).
  assert (is_list_item s = false) as Nl by (now destruct s as [[] ? ? ?]).
  destruct h; cbn [push_block]; try discriminate K.
  - (* section *)
    rewrite S. cbn [bare bare_head bpush]. rewrite last_opt_map.
    destruct (last_opt k) as [x|] eqn:L; cbn [option_map].
    + rewrite takes_bare. destruct (takes_block x s) eqn:X.
      * apply last_opt_inv in L as (k0 & ->). rewrite upd_last_snoc.
        apply Forall_app in IH as [_ IH]. inversion IH as [|? ? Hx _]. subst.
        cbn [tame] in T. apply andb_prop in T as [_ T]. rewrite forallb_app in T. apply andb_prop in T as [_ T]. cbn in T.
        apply andb_prop in T as [T _]. destruct (Hx T S X) as (y & Ey & By). rewrite Ey. cbn [bind].
        eexists. split; [reflexivity|]. rewrite C. cbn [bare_head]. rewrite !map_app. cbn [map]. now rewrite upd_last'_snoc, By.
      * cbn [bind]. eexists. split; [reflexivity|]. rewrite C, map_app. reflexivity.
    + cbn [bind]. eexists. split; [reflexivity|]. rewrite C, map_app. reflexivity.
  - unfold takes_block in K. cbn [b_head] in K. congruence.
  - cbn [bind]. eexists. split; [reflexivity|]. rewrite C, map_app. reflexivity.
  - unfold takes_block in K. cbn [b_head] in K. destruct s as [[] ? ? ?]; discriminate.
  - cbn [bind]. eexists. split; [reflexivity|]. rewrite C, map_app. reflexivity.
  - rewrite Nl. cbn [tame] in T. unfold tame_head in T. destruct n; cbn [parent_name_beq andb] in *;
      try (cbn [bind]; eexists; split; [reflexivity|]; rewrite C, map_app; reflexivity).
    rewrite andb_false_r in T. discriminate.
Qed.

Lemma push_block_leaf h m k loc b : is_section b = false -> is_list_item b = false -> (forall v d t n, h = HParent n v d t -> n <> PTable) ->
  match h with HSection _ _ _ | HParent _ _ _ _ => True | _ => False end ->
  exists loc' , push_block (Blk h m k loc) b = Ok (Blk h m (k ++ [b]) loc').
Proof.
  intros S L Nt H. destruct h; try contradiction; cbn [push_block].
  - rewrite S. cbn. eexists. reflexivity.
  - rewrite L. replace (parent_name_beq n PTable) with false; [cbn; eexists; reflexivity|].
    specialize (Nt v delim title n eq_refl). now destruct n.
Qed.

(** ** The nesting of a list of blocks grows by pushing *)
Definition section_level (b : block) : option nat := match b with Blk (HSection _ _ l) _ _ _ => Some l | _ => None end.
Definition sections (l : list block) : Prop := Forall (fun b => is_section b = true) l.
Lemma split_app {A} (f : A -> bool) l : l = fst (split_while f l) ++ snd (split_while f l).
Proof.
  induction l as [|x l IH]; [reflexivity|]. cbn. destruct (f x); [|reflexivity]. destruct (split_while f l). cbn in *. now rewrite <- IH.
Qed.
Lemma split_all {A} (f : A -> bool) l : Forall (fun x => f x = true) l -> split_while f l = (l, []).
Proof. induction 1 as [|x l H _ IH]; [reflexivity|]. cbn. now rewrite H, IH. Qed.
Lemma split_app_all {A} (f : A -> bool) a b : Forall (fun x => f x = true) a ->
  split_while f (a ++ b) = (a ++ fst (split_while f b), snd (split_while f b)).
Proof. induction 1 as [|x l H _ IH]; cbn; [now destruct (split_while f b)|]. now rewrite H, IH. Qed.
Lemma split_fst {A} (f : A -> bool) l : Forall (fun x => f x = true) (fst (split_while f l)).
Proof. induction l as [|x l IH]; cbn; [constructor|]. destruct (f x) eqn:E; [|constructor]. destruct (split_while f l). cbn in *. now constructor. Qed.

Lemma under_plain l b : is_section b = false -> under l b = true.
Proof. now destruct b as [[] ? ? ?]. Qed.
Lemma nest_plain l : Forall (fun b => is_section b = false) l -> nest l = l.
Proof. induction 1 as [|b l H _ IH]; [reflexivity|]. destruct b as [[] ? ? ?]; try discriminate; cbn; now rewrite IH. Qed.
Lemma nest_shape l : exists a b, nest l = a ++ b /\ Forall (fun x => is_section x = false) a /\ sections b.
Proof.
  induction l as [|x l (a & b & E & Ha & Hb)]; [exists [], []; repeat constructor|].
  destruct (is_section x) eqn:S.
  - destruct x as [[i t lv| | | | | | | | | ] m k loc]; try discriminate. cbn [nest]. rewrite E.
    rewrite split_app_all by (eapply Forall_impl; [|exact Ha]; intros; now apply under_plain).
    exists [], (Blk (HSection i t lv) m (k ++ a ++ fst (split_while (under lv) b)) loc :: snd (split_while (under lv) b)). split; [reflexivity|].
    split; [constructor|]. constructor; [reflexivity|]. rewrite (split_app (under lv) b) in Hb. now apply Forall_app in Hb.
  - exists (x :: a), b. split; [|split; [now constructor|assumption]].
    destruct x as [[] m k loc]; try discriminate; cbn [nest]; now rewrite E.
Qed.
Lemma split_nest_sections lv l : sections (snd (split_while (under lv) (nest l))).
Proof.
  destruct (nest_shape l) as (a & b & -> & Ha & Hb).
  rewrite split_app_all by (eapply Forall_impl; [|exact Ha]; intros; now apply under_plain). cbn [snd].
  rewrite (split_app (under lv) b) in Hb. now apply Forall_app in Hb.
Qed.
Lemma nest_nil l : nest l = [] -> l = [].
Proof. destruct l as [|[[] m k loc] l]; [reflexivity|..]; cbn [nest]; try discriminate. destruct (split_while _ _). discriminate. Qed.

Lemma push_cons x l s : l <> [] -> push_pure (x :: l) s = x :: push_pure l s.
Proof.
  intros H. unfold push_pure. destruct (exists_last H) as (k & y & ->). change (x :: k ++ [y]) with ((x :: k) ++ [y]).
  rewrite !last_opt_snoc. destruct (takes_block y s); [|reflexivity]. rewrite !upd_last'_snoc. reflexivity.
Qed.
Lemma push_app a b s : b <> [] -> push_pure (a ++ b) s = a ++ push_pure b s.
Proof.
  intros H. induction a as [|x a IH]; [reflexivity|]. cbn [app]. rewrite push_cons, IH; [reflexivity|].
  destruct a; [assumption|discriminate].
Qed.

Section Push.
  Variables (i : bytes) (ti : list inline) (ls : nat) (me : option metadata) (leaves : list block).
  Let s0 := Blk (HSection i ti ls) me [] [].
  Let s := Blk (HSection i ti ls) me leaves [].
  Hypothesis Hl : Forall (fun b => is_section b = false) leaves.

  Lemma under_s l : under l s = (l <? ls).
  Proof. reflexivity. Qed.
  Lemma takes_section j t lv m k loc : takes_block (Blk (HSection j t lv) m k loc) s = (lv <? ls).
  Proof. reflexivity. Qed.
  Lemma bpush_level l b : is_section b = true -> under l (bpush b s) = under l b.
  Proof. now destruct b as [[] ? ? ?]. Qed.

  (** pushing onto sections, seen from a level *)
  Lemma push_split l r : sections r -> r <> [] ->
    split_while (under l) (push_pure r s)
    = match snd (split_while (under l) r) with
      | [] => if l <? ls then (push_pure r s, []) else (r, [s])
      | c => (fst (split_while (under l) r), push_pure c s)
      end.
  Proof.
    intros Hr Ne.
    assert (forall x, is_section x = true -> under l x = true -> takes_block x s = true -> l <? ls = true) as Tk.
    { intros x Hx U T. destruct x as [[j t lv| | | | | | | | | ] m k loc]; try discriminate Hx.
      rewrite takes_section in T. cbn in U. apply Nat.ltb_lt in T, U. apply Nat.ltb_lt. lia. }
    pose proof (split_app (under l) r) as E. pose proof (split_fst (under l) r) as F.
    destruct (split_while (under l) r) as [a c] eqn:Sp. cbn [fst snd] in *.
    destruct c as [|x c].
    - rewrite app_nil_r in E. subst a. destruct (exists_last Ne) as (k & y & ->). apply Forall_app in F as [F1 F2].
      inversion F2 as [|? ? F3 _]. subst. apply Forall_app in Hr as [_ Hr]. inversion Hr as [|? ? Hy _]. subst.
      unfold push_pure. rewrite last_opt_snoc. destruct (takes_block y s) eqn:T.
      + rewrite (Tk y Hy F3 T), upd_last'_snoc. apply split_all. apply Forall_app. split; [assumption|]. constructor; [|constructor].
        now rewrite bpush_level.
      + rewrite split_app_all by (apply Forall_app; split; auto). cbn [split_while]. rewrite under_s. destruct (l <? ls); cbn [fst snd]; [reflexivity|].
        now rewrite app_nil_r.
    - rewrite E, push_app by discriminate. rewrite split_app_all by assumption.
      assert (under l x = false) as Ux.
      { clear -Sp. revert a x c Sp. induction r as [|y r IH]; intros a x c Sp; [discriminate|]. cbn in Sp. destruct (under l y) eqn:Uy.
        - destruct (split_while (under l) r) as [a' c'] eqn:E'. injection Sp as <- ->. eapply IH. reflexivity.
        - injection Sp as <- -> ->. exact Uy. }
      assert (is_section x = true) as Hx by (rewrite E in Hr; apply Forall_app in Hr as [_ Hr]; now inversion Hr).
      assert (exists x' c', push_pure (x :: c) s = x' :: c' /\ under l x' = false) as (x' & c' & E' & U').
      { destruct c as [|y c].
        - unfold push_pure. change [x] with ([] ++ [x]). rewrite last_opt_snoc. destruct (takes_block x s).
          + cbn [app upd_last']. eexists _, _. split; [reflexivity|]. now rewrite bpush_level.
          + cbn. eexists _, _. split; [reflexivity|assumption].
        - rewrite push_cons by discriminate. eexists _, _. split; [reflexivity|assumption]. }
      rewrite E'. cbn [split_while]. rewrite U'. cbn [fst snd]. now rewrite app_nil_r.
  Qed.

  Definition flat_head (b : block) : Prop :=
    is_list_item b = false /\ is_dlist_item b = false /\ (is_section b = true -> b_kids b = []).
  Lemma nest_split_push pre : Forall flat_head pre -> forall l, subsections_clear l (pre ++ s0 :: leaves) ->
    split_while (under l) (nest (pre ++ s0 :: leaves))
    = match snd (split_while (under l) (nest pre)) with
      | [] => if l <? ls then (push_pure (nest pre) s, []) else (nest pre, [s])
      | c => (fst (split_while (under l) (nest pre)), push_pure c s)
      end.
  Proof.
    assert (nest (s0 :: leaves) = [s]) as N0.
    { unfold s0. cbn [nest]. rewrite (nest_plain leaves Hl), split_all; [reflexivity|].
      eapply Forall_impl; [|exact Hl]. intros. now apply under_plain. }
    induction pre as [|b pre IH]; intros F l C.
    - cbn [app]. rewrite N0. cbn [nest split_while snd]. rewrite under_s. destruct (l <? ls); reflexivity.
    - inversion F as [|? ? F1 F2]. subst. specialize (IH F2). destruct (is_section b) eqn:Sb.
      + destruct b as [[j t lv| | | | | | | | | ] m k loc]; try discriminate. cbn [app subsections_clear] in C.
        assert (nest ((Blk (HSection j t lv) m k loc :: pre) ++ s0 :: leaves)
                = push_pure (nest (Blk (HSection j t lv) m k loc :: pre)) s) as E.
        { destruct F1 as (_ & _ & F1). specialize (F1 eq_refl). cbn in F1. subst k. cbn [app nest]. rewrite (IH lv C).
          pose proof (split_app (under lv) (nest pre)) as Ep.
          destruct (split_while (under lv) (nest pre)) as [mine rest] eqn:Sp. cbn [fst snd] in *.
          destruct rest as [|x rest].
          - rewrite app_nil_r in Ep. subst mine. unfold push_pure at 2. cbn [app].
            change [Blk (HSection j t lv) m (nest pre) loc] with ([] ++ [Blk (HSection j t lv) m (nest pre) loc]).
            rewrite last_opt_snoc, takes_section, upd_last'_snoc, bpush_section. destruct (lv <? ls); reflexivity.
          - rewrite (push_cons _ (x :: rest)) by discriminate. reflexivity. }
        rewrite E. rewrite push_split; [reflexivity| |].
        * cbn [nest]. pose proof (split_nest_sections lv pre) as Hs. destruct (split_while (under lv) (nest pre)). cbn [snd] in Hs. now constructor.
        * cbn [nest]. destruct (split_while (under lv) (nest pre)). discriminate.
      + assert (subsections_clear l (pre ++ s0 :: leaves)
                /\ (is_parent b = true -> match pre ++ s0 :: leaves with Blk (HSection _ _ n) _ _ _ :: _ => n <= l | _ => True end)) as [C1 C2].
        { destruct b as [[] m k loc]; try discriminate; cbn [app subsections_clear] in C; split; try assumption; try discriminate; try tauto.
          }
        assert (forall x, nest (b :: x) = b :: nest x) as Nb by (intros x; now destruct b as [[] m k loc]).
        cbn [app]. rewrite !Nb. cbn [split_while]. rewrite (under_plain l b Sb), (IH l C1).
        pose proof (split_app (under l) (nest pre)) as Ep.
        destruct (split_while (under l) (nest pre)) as [mine rest] eqn:Sp. cbn [fst snd] in *.
        destruct rest as [|x rest]; [|reflexivity]. destruct (l <? ls) eqn:Ll; [|reflexivity].
        destruct (nest pre) as [|y q] eqn:En; [|now rewrite (push_cons _ (y :: q)) by discriminate].
        apply nest_nil in En. subst pre. cbn [app] in C2. unfold s0 in C2. cbn in C2.
        unfold push_pure. change [b] with ([] ++ [b]). rewrite last_opt_snoc.
        replace (takes_block b s) with false; [reflexivity|]. symmetry.
        destruct F1 as (F1 & F3 & _). destruct b as [[] m k loc]; try discriminate; try reflexivity.
        specialize (C2 eq_refl). apply Nat.ltb_lt in Ll. lia.
  Qed.

  Lemma nest_push pre : Forall flat_head pre -> Forall (fun b => forall l, section_level b = Some l -> 1 <= l) pre -> 1 <= ls ->
    subsections_clear 0 (pre ++ s0 :: leaves) -> nest (pre ++ s0 :: leaves) = push_pure (nest pre) s.
  Proof.
    intros F L Ls C. pose proof (nest_split_push pre F 0 C) as H.
    assert (Forall (fun b => under 0 b = true) (nest pre)) as U.
    { clear -L. induction L as [|b pre Hb _ IH]; [constructor|]. destruct (is_section b) eqn:Sb.
      - destruct b as [[j t lv| | | | | | | | | ] m k loc]; try discriminate. cbn [nest].
        pose proof (split_app (under lv) (nest pre)) as Ep. destruct (split_while (under lv) (nest pre)) as [mine rest]. cbn [fst snd] in Ep.
        rewrite Ep in IH. apply Forall_app in IH as [_ IH]. constructor; [|assumption]. specialize (Hb lv eq_refl). destruct lv; [lia|reflexivity].
      - destruct b as [[] m k loc]; try discriminate; cbn [nest]; now constructor. }
    rewrite (split_all _ _ U) in H. cbn [snd] in H. replace (0 <? ls) with true in H by (symmetry; apply Nat.ltb_lt; lia).
    rewrite (split_app (under 0) (nest (pre ++ s0 :: leaves))), H. cbn [fst snd]. now rewrite app_nil_r.
  Qed.
End Push.

(** ** The blocks finished so far, and the section that is open *)
Definition plain_block (b : block) : Prop := is_section b = false.
Definition flat (l : list block) : Prop :=
  Forall flat_head l /\ Forall (fun b => forall n, section_level b = Some n -> 1 <= n) l /\ Forall (fun b => tame b = true) l.
Definition holds (bst bl done : list block) : Prop :=
  (bst = [] /\ Forall plain_block done /\ map bare bl = done)
  \/ (exists s i t lv pre leaves, bst = [s] /\ bare s = Blk (HSection i t lv) None leaves []
        /\ done = pre ++ Blk (HSection i t lv) None [] [] :: leaves /\ Forall plain_block leaves /\ map bare bl = nest pre).

Lemma clear_prefix l x y : subsections_clear l (x ++ y) -> subsections_clear l x.
Proof.
  revert l. induction x as [|b x IH]; intros l; [cbn; auto|]. cbn [app]. destruct b as [[] m k loc]; cbn [subsections_clear]; eauto.
  intros [H1 H2]. split; [|eauto]. destruct x as [|c x]; [exact I|]. exact H1.
Qed.
Lemma flat_app a b : flat (a ++ b) <-> flat a /\ flat b.
Proof. unfold flat. rewrite !Forall_app. tauto. Qed.
Lemma tame_nest l : Forall (fun b => tame b = true) l -> Forall (fun b => tame b = true) (nest l).
Proof.
  induction 1 as [|b l H _ IH]; [constructor|].
  destruct (is_section b) eqn:S; [|destruct b as [[] m k loc]; try discriminate; cbn [nest]; now constructor].
  destruct b as [[i t lv| | | | | | | | | ] m k loc]; try discriminate. cbn [nest].
  pose proof (split_app (under lv) (nest l)) as E. destruct (split_while (under lv) (nest l)) as [mine rest]. cbn [fst snd] in E.
  rewrite E in IH. apply Forall_app in IH as [I1 I2]. constructor; [|assumption]. cbn [tame] in *. apply andb_prop in H as [-> H]. cbn [andb].
  rewrite forallb_app, H. cbn. apply forallb_forall. now apply Forall_forall.
Qed.

Lemma finish_section s bl done a : holds [s] bl done -> a_blocks a = bl -> flat done -> subsections_clear 0 done ->
  exists a', asg_push_block a s = Ok a' /\ map bare (a_blocks a') = nest done /\ a_header a' = a_header a.
Proof.
  intros [(E & _)|(s' & i & t & lv & pre & leaves & E & Es & Ed & Hl & Hb)] Ea (F1 & F2 & F3) C; [discriminate|].
  injection E as <-. subst done bl.
  apply Forall_app in F1 as [F1 _]. apply Forall_app in F2 as [F2 F2']. inversion F2' as [|? ? F4 _]. subst. specialize (F4 lv eq_refl).
  apply Forall_app in F3 as [F3 F3']. inversion F3' as [|? ? _ F5]. subst.
  rewrite (nest_push i t lv None leaves Hl pre F1 F2 F4 C).
  unfold asg_push_block.
  assert (is_section s = true) as Ss by (rewrite <- is_section_bare, Es; reflexivity).
  assert (bare (consolidate_locations s) = Blk (HSection i t lv) None leaves []) as Ec by now rewrite bare_consolidate.
  assert (is_section (consolidate_locations s) = true) as Sc by (rewrite <- is_section_bare, Ec; reflexivity).
  rewrite Sc. unfold push_pure. rewrite <- Hb, last_opt_map.
  destruct (last_opt (a_blocks a)) as [x|] eqn:L; cbn [option_map].
  - rewrite <- Ec, takes_bare. destruct (takes_block x (consolidate_locations s)) eqn:T.
    + apply last_opt_inv in L as (k & L). rewrite L in Hb |- *. rewrite upd_last_snoc.
      assert (tame x = true) as Tx.
      { rewrite <- tame_bare. apply tame_nest in F3. rewrite <- Hb, map_app in F3. apply Forall_app in F3 as [_ F3]. now inversion F3. }
      destruct (push_block_bare x (consolidate_locations s) Tx Sc T) as (y & Ey & By). rewrite Ey. cbn [bind].
      eexists. split; [reflexivity|]. cbn [a_blocks a_header]. rewrite !map_app. cbn [map]. rewrite upd_last'_snoc, By. auto.
    + cbn [bind]. eexists. split; [reflexivity|]. cbn [a_blocks a_header]. rewrite map_app. auto.
  - cbn [bind]. eexists. split; [reflexivity|]. cbn [a_blocks a_header]. rewrite map_app. cbn [map]. rewrite Ec. auto.
Qed.
Lemma holds_nil bl done : holds [] bl done -> map bare bl = nest done.
Proof.
  intros [(_ & F & E)|(s & i & t & lv & pre & leaves & E & _)]; [|discriminate]. now rewrite nest_plain.
Qed.
