(** * Lemmas on blocks and their shapes *)
From Verif Require Import Base World Location Token Meta Inline Block Asg Parser SpecGraph.
Local Open Scope nat_scope.
Local Arguments Nat.ltb : simpl never.

(** ** Partial correctness: what holds of the result if there is one *)
Definition post {E A} (r : res E A) (Q : A -> Prop) : Prop := forall x, r = Ok x -> Q x.
Lemma post_ok {E A} (x : A) (Q : A -> Prop) : Q x -> post (Ok x : res E A) Q.
Proof. intros H y [= <-]. exact H. Qed.
Lemma post_err {E A} (e : E) (Q : A -> Prop) : post (Err e) Q.
Proof. intros y H. discriminate. Qed.
Lemma post_panic {E A} (Q : A -> Prop) : post (Panic : res E A) Q.
Proof. intros y H. discriminate. Qed.
Lemma post_hang {E A} (Q : A -> Prop) : post (Hang : res E A) Q.
Proof. intros y H. discriminate. Qed.
Lemma post_exit {E A} (Q : A -> Prop) : post (Exit : res E A) Q.
Proof. intros y H. discriminate. Qed.
Lemma post_bind {E A B} (m : res E A) (f : A -> res E B) Q R :
  post m R -> (forall a, R a -> post (f a) Q) -> post (bind m f) Q.
Proof. intros H K y E'. destruct m; cbn in E'; try discriminate. eapply K; [apply H; reflexivity | exact E']. Qed.
Lemma post_any {E A B} (m : res E A) (f : A -> res E B) Q :
  (forall a, m = Ok a -> post (f a) Q) -> post (bind m f) Q.
Proof. intros K. apply (post_bind _ _ _ (fun a => m = Ok a)); [intros a; auto | exact K]. Qed.
Lemma post_mono {E A} (m : res E A) (R Q : A -> Prop) : post m R -> (forall a, R a -> Q a) -> post m Q.
Proof. intros H K y E'. apply K, H, E'. Qed.

(** ** Induction over nested lists *)
Section InlineInd.
  Variable P : inline -> Prop.
  Hypothesis Hs : forall v f l m loc o, Forall P l -> P (ISpan v f l m loc o).
  Hypothesis Hr : forall v t l m loc, Forall P l -> P (IRef v t l m loc).
  Hypothesis Hl : forall n k v loc, P (ILit n k v loc).
  Hypothesis Hb : forall loc, P (IBreak loc).
  Fixpoint inline_ind2 (i : inline) : P i :=
    let all := fix all (l : list inline) : Forall P l :=
      match l with [] => Forall_nil P | x :: r => Forall_cons x (inline_ind2 x) (all r) end in
    match i with
    | ISpan v f l m loc o => Hs v f l m loc o (all l)
    | IRef v t l m loc => Hr v t l m loc (all l)
    | ILit n k v loc => Hl n k v loc
    | IBreak loc => Hb loc
    end.
End InlineInd.
Section BlockInd.
  Variable P : block -> Prop.
  Hypothesis Hb : forall h m k loc, Forall P k -> P (Blk h m k loc).
  Fixpoint block_ind2 (b : block) : P b :=
    match b with
    | Blk h m k loc =>
        Hb h m k loc ((fix all (l : list block) : Forall P l :=
          match l with [] => Forall_nil P | x :: r => Forall_cons x (block_ind2 x) (all r) end) k)
    end.
End BlockInd.
Section SkelInd.
  Variable P : skel -> Prop.
  Hypothesis Hb : forall s k, Forall P k -> P (Node s k).
  Fixpoint skel_ind2 (b : skel) : P b :=
    match b with
    | Node s k =>
        Hb s k ((fix all (l : list skel) : Forall P l :=
          match l with [] => Forall_nil P | x :: r => Forall_cons x (skel_ind2 x) (all r) end) k)
    end.
End SkelInd.

(** ** Last elements *)
Lemma last_opt_snoc {A} (l : list A) x : last_opt (l ++ [x]) = Some x.
Proof. unfold last_opt. now rewrite rev_app_distr. Qed.
Lemma last_opt_inv {A} (l : list A) x : last_opt l = Some x -> exists k, l = k ++ [x].
Proof.
  unfold last_opt. intros H. destruct (rev l) as [|y r] eqn:E; [discriminate|]. injection H as ->.
  exists (rev r). now rewrite <- (rev_involutive l), E.
Qed.
Lemma last_opt_none {A} (l : list A) : last_opt l = None -> l = [].
Proof.
  unfold last_opt. intros H. destruct (rev l) eqn:E; [|discriminate]. now rewrite <- (rev_involutive l), E.
Qed.
Lemma upd_last_snoc {A E} (f : A -> res E A) l x :
  upd_last f (l ++ [x]) = let* y := f x in Ok (l ++ [y]).
Proof.
  induction l as [|z l IH]; [reflexivity|]. cbn [app upd_last]. rewrite IH.
  destruct (l ++ [x]) eqn:K; [destruct l; discriminate|]. destruct (f x); reflexivity.
Qed.
Lemma upd_last'_snoc {A} (f : A -> A) l x : upd_last' f (l ++ [x]) = l ++ [f x].
Proof.
  induction l as [|z l IH]; [reflexivity|]. cbn [app upd_last']. rewrite IH.
  destruct (l ++ [x]) eqn:K; [destruct l; discriminate | reflexivity].
Qed.
Lemma upd_last'_nil {A} (f : A -> A) : upd_last' f [] = [].
Proof. reflexivity. Qed.
Lemma upd_last_nil {A E} (f : A -> res E A) : upd_last f [] = Ok [].
Proof. reflexivity. Qed.

(** ** Shapes *)
Lemma root_skel b : root (skel_of b) = shape_of (b_head b).
Proof. destruct b; reflexivity. Qed.
Lemma takes_admits b n : takes_block b n = true <-> admits (root (skel_of b)) (root (skel_of n)).
Proof.
  destruct b as [h m k l], n as [h' m' k' l']. unfold takes_block, level_check, is_list_item, is_dlist_item. cbn.
  destruct h; cbn; try tauto; try (split; [discriminate | tauto]).
  - destruct h'; cbn; try tauto. rewrite Nat.ltb_lt. tauto.
  - destruct h'; cbn; split; intros H; try discriminate; try (destruct H; discriminate); eauto.
  - destruct h'; cbn; split; intros H; try discriminate; auto.
Qed.
Lemma consolidate_head b : b_head (consolidate_locations b) = b_head b.
Proof. destruct b as [[] m k l]; cbn; try reflexivity; destruct (last_locs k); reflexivity. Qed.
Lemma skel_consolidate b : skel_of (consolidate_locations b) = skel_of b.
Proof.
  induction b as [h m k loc IH] using block_ind2. destruct h; cbn; try reflexivity.
  - f_equal. rewrite map_map. apply map_ext_in. intros x Hx. rewrite Forall_forall in IH. now apply IH.
  - destruct (last_locs k); reflexivity.
  - f_equal. rewrite map_map. apply map_ext_in. intros x Hx. rewrite Forall_forall in IH. now apply IH.
  - destruct (last_locs k); reflexivity.
Qed.
Lemma is_section_level b : is_section b = true <-> section_level (root (skel_of b)) <> None.
Proof. destruct b as [[]]; cbn; split; intros; congruence. Qed.
Lemma is_list_item_shape b : is_list_item b = true <-> exists mk, root (skel_of b) = KListItem mk.
Proof.
  destruct b as [[]]; cbn; split; intros H; try discriminate; try (destruct H; discriminate); eauto.
Qed.
Lemma is_list_shape b : is_list b = true <-> exists v, root (skel_of b) = KList v.
Proof.
  destruct b as [[]]; cbn; split; intros H; try discriminate; try (destruct H; discriminate); eauto.
Qed.

Lemma parent_name_beq_eq a b : parent_name_beq a b = true <-> a = b.
Proof. destruct a, b; split; intros H; try reflexivity; try discriminate; congruence. Qed.

Lemma push_block_grows b : forall nb b', push_block b nb = Ok b' ->
  b_head b' = b_head b /\ grows (skel_of b) (skel_of nb) (skel_of b').
Proof.
  induction b as [h m k loc IH] using block_ind2. intros nb b' H. cbn [push_block] in H.
  assert (forall k', (Ok (consolidate_locations (Blk h m k' loc)) : result block) = Ok b' ->
    grows (Node (shape_of h) (map skel_of k)) (skel_of nb) (Node (shape_of h) (map skel_of k')) ->
    b_head b' = h /\ grows (Node (shape_of h) (map skel_of k)) (skel_of nb) (skel_of b')) as Fin.
  { intros k' E G. assert (b' = consolidate_locations (Blk h m k' loc)) as -> by congruence. rewrite consolidate_head, skel_consolidate. auto. }
  cbn [skel_of b_head].
  destruct h; cbn [bind] in H; try discriminate.
  - destruct (is_section nb) eqn:Es.
    + destruct (last_opt k) as [x|] eqn:El.
      * apply last_opt_inv in El as [k0 ->].
        apply Forall_app in IH as [_ IH]. apply Forall_inv in IH.
        destruct (takes_block x nb) eqn:Et.
        -- rewrite upd_last_snoc in H. destruct (push_block x nb) as [x'| | | |] eqn:Ex; try discriminate.
           cbn [bind] in H. apply Fin with (1 := H). rewrite !map_app. cbn [map].
           apply grow_section_deeper; [now apply is_section_level | now apply takes_admits | now apply IH].
        -- apply Fin with (1 := H). rewrite (map_app _ (k0 ++ [x])). cbn [map]. apply grow_section.
           intros _ k' y E. rewrite map_app in E. cbn [map] in E. apply app_inj_tail in E as [_ <-].
           intros K. apply takes_admits in K. congruence.
      * apply last_opt_none in El. subst k. apply Fin with (1 := H). cbn. apply (grow_section _ []).
        intros _ k' x E. destruct k'; discriminate.
    + apply Fin with (1 := H). rewrite map_app. cbn [map]. apply grow_section.
      intros K. apply is_section_level in K. congruence.
  - apply Fin with (1 := H). rewrite map_app. apply grow_list. cbn; eauto 6.
  - apply Fin with (1 := H). rewrite map_app. apply grow_list. cbn; eauto 6.
  - apply Fin with (1 := H). rewrite map_app. apply grow_list. cbn; eauto 6.
  - apply Fin with (1 := H). rewrite map_app. apply grow_list. cbn; eauto 6.
  - destruct (is_list_item nb) eqn:Es.
    + destruct (last_opt k) as [x|] eqn:El; [|discriminate].
      destruct (is_list x) eqn:Ei; [|discriminate].
      apply last_opt_inv in El as [k0 ->].
      apply Forall_app in IH as [_ IH]. apply Forall_inv in IH.
      rewrite upd_last_snoc in H. destruct (push_block x nb) as [x'| | | |] eqn:Ex; try discriminate.
      cbn [bind] in H. apply Fin with (1 := H). rewrite !map_app. cbn [map].
      apply is_list_item_shape in Es as [mk Es]. apply is_list_shape in Ei as [lv Ei].
      eapply grow_parent_list; [exact Es | exact Ei |]. rewrite skel_consolidate. now apply IH.
    + destruct (parent_name_beq n PTable && negb (is_cell nb)) eqn:Et; [discriminate|].
      apply Fin with (1 := H). rewrite map_app. apply grow_parent.
      * intros mk K. assert (is_list_item nb = true) by (apply is_list_item_shape; eauto). congruence.
      * intros ->. cbn in Et. destruct nb as [[]]; cbn in *; try discriminate. reflexivity.
Qed.

Lemma push_inline_skel b i b' : push_inline b i = Ok b' -> skel_of b' = skel_of b.
Proof. destruct b as [[] m k loc]; cbn; intros [= <-]; reflexivity. Qed.
Lemma push_inlines_skel l : forall b b', push_inlines b l = Ok b' -> skel_of b' = skel_of b.
Proof.
  induction l as [|i l IH]; intros b b' H; cbn in H; [now injection H as ->|].
  destruct (push_inline b i) as [b1| | | |] eqn:E; try discriminate. apply IH in H. rewrite H. eapply push_inline_skel, E.
Qed.
Lemma add_metadata_skel b m b' : add_metadata b m = Ok b' -> skel_of b' = skel_of b.
Proof.
  unfold add_metadata. destruct (meta_is_empty m); [now intros [= ->]|].
  destruct b as [[] m0 k loc]; intros [= <-]; reflexivity.
Qed.
Lemma add_locations_skel b l b' : add_locations b l = Ok b' -> skel_of b' = skel_of b.
Proof. destruct b as [[] m k loc]; cbn; intros [= <-]; reflexivity. Qed.
Lemma set_title_skel b ti : skel_of (set_block_title b ti) = skel_of b.
Proof. destruct b as [[] m k loc]; reflexivity. Qed.
Lemma is_section_skel a b : skel_of a = skel_of b -> is_section a = is_section b.
Proof. destruct a as [[]], b as [[]]; cbn; intros E; congruence. Qed.
Lemma is_section_head a b : b_head a = b_head b -> is_section a = is_section b.
Proof. unfold is_section. now intros ->. Qed.
Lemma skel_map_inlines f b : skel_of (map_inlines f b) = skel_of b.
Proof.
  induction b as [h m k loc IH] using block_ind2. cbn. f_equal; [now destruct h|].
  rewrite map_map. apply map_ext_in. intros x Hx. rewrite Forall_forall in IH. now apply IH.
Qed.
(** ** Maps and metadata *)
Lemma beqb_true a : forall b, beqb a b = true <-> a = b.
Proof.
  induction a as [|x a IH]; destruct b as [|y b]; cbn; try (split; [discriminate | discriminate]); [tauto|].
  rewrite andb_true_iff, Ascii.eqb_eq, IH. split; [intros [-> ->]; reflexivity | intros [= -> ->]; auto].
Qed.
Lemma minsert_keys {V} k (v : V) m x : In x (map fst (minsert k v m)) -> x = k \/ In x (map fst m).
Proof.
  induction m as [|[k' v'] m IH]; cbn.
  - intros [<-|[]]; auto.
  - destruct (beqb k k') eqn:E; cbn; intros [<-|H]; auto. apply IH in H as [->|H]; auto.
Qed.
Lemma minsert_nodup {V} k (v : V) m : NoDup (map fst m) -> NoDup (map fst (minsert k v m)).
Proof.
  induction m as [|[k' v'] m IH]; cbn; intros H; [repeat constructor; auto|].
  inversion H as [|? ? Hn Hd]. subst. destruct (beqb k k') eqn:E; cbn.
  - apply beqb_true in E. subst k'. now constructor.
  - constructor; [|now apply IH]. intros K. apply minsert_keys in K as [->|K]; [|contradiction].
    assert (beqb k k = true) by now apply beqb_true. congruence.
Qed.
Lemma minsert_forall {V} (P : V -> Prop) k v (m : list (bytes * V)) :
  P v -> Forall (fun kv => P (snd kv)) m -> Forall (fun kv => P (snd kv)) (minsert k v m).
Proof.
  intros Hv. induction 1 as [|[k' v'] m Hk Hm IH]; cbn; [repeat constructor; auto|].
  destruct (beqb k k'); constructor; auto.
Qed.
Lemma mextend_forall {V} (P : V -> Prop) n : forall (m : list (bytes * V)),
  Forall (fun kv => P (snd kv)) m -> Forall (fun kv => P (snd kv)) n -> Forall (fun kv => P (snd kv)) (mextend m n).
Proof.
  unfold mextend. induction n as [|[k v] n IH]; intros m Hm Hn; cbn; [exact Hm|].
  inversion Hn. subst. apply IH; [now apply minsert_forall | assumption].
Qed.
Lemma mget_forall {V} (P : V -> Prop) k v (m : list (bytes * V)) :
  Forall (fun kv => P (snd kv)) m -> mget k m = Some v -> P v.
Proof.
  induction 1 as [|[k' v'] m Hk Hm IH]; cbn; [discriminate|].
  destruct (beqb k k'); [intros [= <-]; exact Hk | exact IH].
Qed.

(** metadata derived from other metadata: same position, keys still distinct *)
Definition meta_from (m m' : metadata) : Prop :=
  m_loc m' = m_loc m /\ (NoDup (map fst (m_attrs m)) -> NoDup (map fst (m_attrs m'))).
Lemma meta_from_refl m : meta_from m m.
Proof. split; auto. Qed.
Lemma meta_from_trans a b c : meta_from a b -> meta_from b c -> meta_from a c.
Proof. intros [E H] [E' H']. split; [congruence | auto]. Qed.
Lemma meta_from_insert k v m : meta_from m (m_insert k v m).
Proof. split; [reflexivity|]. apply minsert_nodup. Qed.
Lemma meta_from_same m m' : m_loc m' = m_loc m -> m_attrs m' = m_attrs m -> meta_from m m'.
Proof. intros E E'. split; [exact E | rewrite E'; auto]. Qed.

Lemma simplify_cols_from m : post (simplify_cols m) (meta_from m).
Proof.
  unfold simplify_cols. destruct (mget _ _) as [v|]; [|apply post_ok, meta_from_refl].
  destruct (memc _ v); [apply post_ok, meta_from_insert|].
  destruct (_ =? 2); [|apply post_ok, meta_from_refl].
  apply post_any. intros tl _. destruct (beqb tl _); [|apply post_ok, meta_from_refl].
  apply post_any. intros hd _. apply post_ok, meta_from_insert.
Qed.

Lemma table_info_inv n v d t m k loc b' : consolidate_table_info (Blk (HParent n v d t) m k loc) = Ok b' ->
  b' = Blk (HParent n v d t) m k loc
  \/ exists x, b' = Blk (HParent n v d t) (Some x) k loc /\ meta_from (get_meta m) x.
Proof.
  unfold consolidate_table_info. destruct k as [|c0 [|c1 k]]; try (intros [= <-]; now left).
  set (kk := c0 :: c1 :: k). intros H. right.
  destruct (block_line c0) as [l0| | | |]; try discriminate. cbn [bind] in H.
  destruct (block_line c1) as [l1| | | |]; try discriminate. cbn [bind] in H.
  assert (forall mm : option metadata, meta_from (get_meta m) (get_meta mm) ->
    match mm with None => Exit | Some x => let* x' := simplify_cols x in Ok (Blk (HParent n v d t) (Some x') kk loc) end = Ok b' ->
    exists x, b' = Blk (HParent n v d t) (Some x) kk loc /\ meta_from (get_meta m) x) as Fin.
  { intros [x|] Hm E; [|discriminate]. pose proof (simplify_cols_from x) as S.
    destruct (simplify_cols x) as [x'| | | |]; try discriminate. injection E as <-. exists x'. split; [reflexivity|].
    eapply meta_from_trans; [exact Hm | now apply S]. }
  destruct (l0 =? l1).
  - destruct loc as [|l loc']; [discriminate|]. cbn [bind] in H. revert H. apply Fin.
    set (m1 := if l0 =? loc_line l + 1 then _ else m).
    assert (meta_from (get_meta m) (get_meta m1)) as H1.
    { subst m1. destruct (l0 =? loc_line l + 1); [apply meta_from_same; reflexivity | apply meta_from_refl]. }
    destruct m1 as [x|]; cbn [get_meta] in *.
    + destruct (mhas _ _); [exact H1|]. eapply meta_from_trans; [exact H1 | apply meta_from_insert].
    + eapply meta_from_trans; [exact H1 | apply meta_from_insert].
  - cbn [bind] in H. revert H. apply Fin. apply meta_from_refl.
Qed.
Lemma table_info_skel b b' : consolidate_table_info b = Ok b' -> skel_of b' = skel_of b.
Proof.
  destruct b as [[] m k loc]; try discriminate. intros H.
  apply table_info_inv in H as [-> | (x & -> & _)]; reflexivity.
Qed.
