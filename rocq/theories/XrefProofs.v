(** * Cross references: proofs for C21 *)
From Verif Require Import Base World Location Token Scanner Meta Inline Block Asg Parser
  SpecXref ScanLemmas GraphLemmas TreeInd MetaProofs Runs RunProofs.
Local Open Scope nat_scope.

(** id and title *)
Definition key (b : block) : option bytes * list inline := (block_id b, match block_title b with Some t => t | None => [] end).
Definition keys (l : list block) : list (option bytes * list inline) := map key (List.concat (map in_order l)).
(** the last title of an id *)
Fixpoint last_of (id : bytes) (l : list (option bytes * list inline)) (d : option (list inline)) : option (list inline) :=
  match l with
  | [] => d
  | (Some i, t) :: r => last_of id r (if beqb id i then Some t else d)
  | (None, _) :: r => last_of id r d
  end.
Lemma last_of_app id l1 : forall l2 d, last_of id (l1 ++ l2) d = last_of id l2 (last_of id l1 d).
Proof. induction l1 as [|[[i|] t] l1 IH]; intros; cbn; auto. Qed.
Lemma last_of_default id l : forall d, last_of id l d = match last_of id l None with Some v => Some v | None => d end.
Proof.
  induction l as [|[[i|] t] l IH]; intros d; cbn; auto. rewrite IH. rewrite (IH (if beqb id i then Some t else None)). destruct (last_of id l None); [reflexivity|].
  destruct (beqb id i); reflexivity.
Qed.
Lemma last_of_none id l d : Forall (fun k => fst k <> Some id) l -> last_of id l d = d.
Proof.
  revert d. induction l as [|[[i|] t] l IH]; intros d F; cbn; auto; apply Forall_cons_iff in F as [F1 F2]; [|now apply IH].
  rewrite IH by assumption. destruct (beqb id i) eqn:E; [|reflexivity]. apply beqb_eq in E. subst. now contradiction F1.
Qed.
Lemma last_of_split id l1 t l2 d : Forall (fun k => fst k <> Some id) l2 -> last_of id (l1 ++ (Some id, t) :: l2) d = Some t.
Proof. intros F. rewrite last_of_app. cbn. rewrite beqb_refl. now apply last_of_none. Qed.

Lemma mextend_nodup {V} n : forall m : list (bytes * V), NoDup (map fst m) -> NoDup (map fst (mextend m n)).
Proof. induction n as [|[k v] n IH]; intros m H; [exact H|]. cbn. apply IH. now apply minsert_nodup. Qed.
Lemma mget_notin {V} k (n : list (bytes * V)) : ~ In k (map fst n) -> mget k n = None.
Proof.
  induction n as [|[i v] n IH]; intros H; [reflexivity|]. cbn in *. destruct (beqb k i) eqn:E; [|apply IH; tauto]. apply beqb_eq in E. subst. tauto.
Qed.
Lemma mextend_get {V} k n : forall m : list (bytes * V), NoDup (map fst n) ->
  mget k (mextend m n) = match mget k n with Some v => Some v | None => mget k m end.
Proof.
  induction n as [|[i v] n IH]; intros m H; [reflexivity|]. cbn in *. inversion H as [|? ? H1 H2]. subst. change (fold_left _ n ?x) with (mextend x n).
  rewrite IH by assumption. rewrite minsert_mget. destruct (beqb k i) eqn:E; [|reflexivity]. apply beqb_eq in E. subst. now rewrite mget_notin.
Qed.

Definition go_ids := fix go (acc : list (bytes * list inline)) (l : list block) :=
  match l with [] => acc | x :: r => go (mextend acc (id_hashes x)) r end.
Lemma id_hashes_eq h m k loc : id_hashes (Blk h m k loc) =
  go_ids (match block_id (Blk h m k loc) with Some i => [(i, snd (key (Blk h m k loc)))] | None => [] end) k.
Proof. reflexivity. Qed.
Lemma go_nodup l : forall acc, NoDup (map fst acc) -> NoDup (map fst (go_ids acc l)).
Proof. induction l as [|x l IH]; intros acc H; [exact H|]. cbn. apply IH. now apply mextend_nodup. Qed.
Lemma ids_nodup b : NoDup (map fst (id_hashes b)).
Proof.
  destruct b. rewrite id_hashes_eq. apply go_nodup. destruct (block_id _); repeat constructor. intros [].
Qed.
Lemma keys_cons x l : keys (x :: l) = keys [x] ++ keys l.
Proof. unfold keys. cbn. rewrite map_app, app_nil_r. reflexivity. Qed.
Lemma keys_app l1 l2 : keys (l1 ++ l2) = keys l1 ++ keys l2.
Proof. unfold keys. now rewrite map_app, concat_app, map_app. Qed.
Lemma keys_one h m k loc : keys [Blk h m k loc] = key (Blk h m k loc) :: keys k.
Proof. unfold keys. cbn. now rewrite app_nil_r. Qed.
Lemma ids_get id b : mget id (id_hashes b) = last_of id (keys [b]) None.
Proof.
  induction b as [h m k loc IH] using block_ind'. rewrite id_hashes_eq, keys_one.
  assert (forall acc, mget id (go_ids acc k) = last_of id (keys k) (mget id acc)) as G.
  { clear h m loc. induction k as [|x k IHk]; intros acc; [reflexivity|]. apply Forall_cons_iff in IH as [I1 I2]. rewrite keys_cons, last_of_app. cbn [go_ids].
    rewrite (IHk I2). f_equal. rewrite mextend_get by apply ids_nodup. rewrite I1. symmetry. apply last_of_default. }
  rewrite G. unfold key at 2. cbn. destruct (block_id _) as [i|]; cbn; reflexivity.
Qed.

(** ** Pushing keeps the order *)
Lemma consolidate_keys b : keys [consolidate_locations b] = keys [b].
Proof.
  induction b as [h m k loc IH] using block_ind'.
  assert (keys (map consolidate_locations k) = keys k) as K.
  { induction k as [|x k IHk]; [reflexivity|]. apply Forall_cons_iff in IH as [I1 I2]. cbn [map]. rewrite keys_cons, (keys_cons x). now rewrite I1, IHk. }
  destruct h; cbn [consolidate_locations]; try (destruct (last_locs k)); rewrite ?keys_one; try rewrite K; reflexivity.
Qed.
Lemma upd_last_keys f l l' n : l <> [] -> (forall x y, In x l -> f x = Ok y -> keys [y] = keys [x] ++ n) ->
  upd_last f l = (Ok l' : result (list block)) -> keys l' = keys l ++ n.
Proof.
  revert l'. induction l as [|x l IH]; intros l' N H U; [congruence|]. cbn [upd_last] in U. destruct l as [|y l].
  - apply bind_ok in U as (z & E & U). injection U as <-. now apply (H x); [left|].
  - apply bind_ok in U as (r & E & U). injection U as <-. rewrite (keys_cons x), (keys_cons x (y :: l)), <- app_assoc. f_equal. apply IH; [discriminate| |exact E].
    intros a b A. apply H. now right.
Qed.
Lemma last_opt_nonempty {A} (l : list A) x : last_opt l = Some x -> l <> [].
Proof. destruct l; [discriminate|discriminate]. Qed.
Lemma push_keys b : forall nb b', push_block b nb = Ok b' -> keys [b'] = keys [b] ++ keys [nb].
Proof.
  induction b as [h m k loc IH] using block_ind'. intros nb b' H. cbn [push_block] in H. apply bind_ok in H as (k' & K & H).
  assert (keys [b'] = key (Blk h m k loc) :: keys k') as E by (assert (b' = consolidate_locations (Blk h m k' loc)) as -> by congruence; rewrite consolidate_keys, keys_one; reflexivity). rewrite E, keys_one. clear E H. cbn [app]. f_equal.
  assert (keys (k ++ [nb]) = keys k ++ keys [nb]) as A by apply keys_app. rewrite Forall_forall in IH.
  destruct h; try discriminate; try (injection K as <-; exact A).
  - destruct (is_section nb); [|injection K as <-; exact A]. destruct (last_opt k) as [x|] eqn:L; [|injection K as <-; exact A].
    destruct (takes_block x nb); [|injection K as <-; exact A]. apply (upd_last_keys _ _ _ (keys [nb])) in K; [exact K|eapply last_opt_nonempty, L|]. intros. now apply IH.
  - destruct (is_list_item nb).
    + destruct (last_opt k) as [x|] eqn:L; [|discriminate]. destruct (is_list x); [|discriminate]. apply (upd_last_keys _ _ _ (keys [nb])) in K; [exact K|eapply last_opt_nonempty, L|].
      intros y z Y Z. apply bind_ok in Z as (z' & Z & E). injection E as <-. rewrite consolidate_keys. now apply IH.
    + destruct (_ && _); [discriminate|]. injection K as <-. exact A.
Qed.

(** ** The graph *)
Lemma steps_ids w a a' : steps w a a' -> (forall id, mget id (a_ids a) = last_of id (keys (a_blocks a)) None) ->
  forall id, mget id (a_ids a') = last_of id (keys (a_blocks a')) None.
Proof.
  induction 1 as [a|a b c d S IH P|a b h attrs S IH]; intros H id; [apply H| |exact (IH H id)].
  unfold asg_push_block in P. apply bind_ok in P as (bl & B & P). injection P as <-. cbn [a_ids a_blocks].
  rewrite mextend_get by apply ids_nodup. rewrite ids_get, IH by assumption. rewrite <- last_of_default, <- last_of_app.
  f_equal. set (c' := consolidate_locations c) in *. symmetry.
  assert (keys (a_blocks b ++ [c']) = keys (a_blocks b) ++ keys [c']) as A by apply keys_app.
  destruct (is_section c'); [|injection B as <-; exact A]. destruct (last_opt (a_blocks b)) as [x|] eqn:L; [|injection B as <-; exact A].
  destruct (takes_block x c'); [|injection B as <-; exact A]. apply (upd_last_keys _ _ _ (keys [c'])) in B; [exact B|eapply last_opt_nonempty, L|]. intros y z _. apply push_keys.
Qed.
Lemma parse_steps w fuel origin resolve src a : parse w fuel origin resolve src = Ok a -> exists a0, steps w new_asg a0 /\ a = asg_consolidate a0.
Proof.
  intros H. apply (r_parse w true true (fun _ _ _ => True) origin) with (f := fuel) (src := src) (resolve := resolve); auto; intros; try split; try (apply Forall_forall; auto); apply sane_cases; auto.
Qed.

(** ** Filling in the titles *)
Section Fill.
  Variable f : inline -> inline.
  Lemma fill_order b : in_order (map_inlines f b) = map (map_inlines f) (in_order b).
  Proof.
    induction b as [h m k loc IH] using block_ind'. cbn. f_equal. rewrite map_map. induction k as [|x k IHk]; [reflexivity|].
    apply Forall_cons_iff in IH as [I1 I2]. cbn. rewrite map_app, I1. f_equal. now apply IHk.
  Qed.
  Lemma fill_orders l : List.concat (map in_order (map (map_inlines f) l)) = map (map_inlines f) (List.concat (map in_order l)).
  Proof. induction l as [|x l IH]; [reflexivity|]. cbn. now rewrite map_app, fill_order, IH. Qed.
End Fill.
Lemma map_no_xref ids l l' : l' = map (xref_standardize ids) l -> no_xref l' -> l' = l.
Proof.
  revert l'. induction l as [|i l IH]; intros l' -> N; [reflexivity|]. cbn in *. f_equal.
  - destruct i as [| [] t k m loc| |]; try reflexivity. exfalso. cbn in N. destruct (mget t ids) as [x|]; eapply (N t); left; reflexivity.
  - apply IH; [reflexivity|]. intros t k m loc K. eapply (N t). right. exact K.
Qed.
Lemma has_id_block b id : has_id b id <-> block_id b = Some id.
Proof.
  unfold has_id, block_id. split.
  - intros (m & -> & H). exact H.
  - destruct (b_meta b) as [m|]; [|discriminate]. intros H. now exists m.
Qed.
Lemma fill_id f b : block_id (map_inlines f b) = block_id b.
Proof. now destruct b as [[] ? ? ?]. Qed.
Lemma standard_xref ids i t l m loc : xref_standardize ids i = IRef RXref t l m loc ->
  match mget t ids with Some x => l = x | None => i = IRef RXref t l m loc end.
Proof.
  destruct i as [| [] t' k m' loc'| |]; cbn; try discriminate. destruct (mget t' ids) as [x|] eqn:E; intros [= <- <- <- <-]; now rewrite E.
Qed.
Lemma stands_fill f i b : stands_in i (map_inlines f b) -> exists j, i = f j /\ stands_in j b.
Proof.
  unfold stands_in. destruct b as [[] ? ? ?]; cbn; try tauto; intros H; apply in_map_iff in H as (j & <- & J); eauto.
Qed.
Lemma keys_document l : keys l = map key (List.concat (map in_order l)).
Proof. reflexivity. Qed.

Lemma xref_filled w fuel origin resolve src a : parse w fuel origin resolve src = Ok a ->
  forall b t l m loc pre d post title, In b (document a) -> stands_in (IRef RXref t l m loc) b ->
  document a = pre ++ d :: post -> has_id d t -> Forall (fun x => ~ has_id x t) post -> title_is d title -> no_xref title -> l = title.
Proof.
  intros H b t l m loc pre d post title B S D Hd Hp T N. apply parse_steps in H as (a0 & St & ->).
  pose proof (steps_ids _ _ _ St (fun _ => eq_refl) t) as G. unfold document in *. cbn [asg_consolidate a_blocks] in *.
  rewrite fill_orders in B, D. set (f := xref_standardize (a_ids a0)) in *.
  apply in_map_iff in B as (b0 & <- & B). apply stands_fill in S as (j & J & S).
  symmetry in J. apply standard_xref in J.
  apply map_eq_app in D as (pre0 & r & ED & <- & R). apply map_eq_cons in R as (d0 & post0 & -> & <- & <-).
  assert (title = match block_title d0 with Some x => x | None => [] end) as ET.
  { destruct d0 as [[] ? ? ?]; cbn in T |- *; unfold title_is in T; cbn in T; try exact T; now apply (map_no_xref (a_ids a0)). }
  apply has_id_block in Hd. rewrite fill_id in Hd.
  rewrite keys_document, ED, map_app in G. cbn [map] in G. unfold key at 2 in G. rewrite Hd in G. rewrite last_of_split in G.
  - rewrite G in J. now rewrite J, ET.
  - apply Forall_forall. intros k K. apply in_map_iff in K as (x & <- & X). cbn. rewrite <- (fill_id f). intros E. rewrite Forall_forall in Hp.
    apply (Hp (map_inlines f x)); [now apply in_map|]. now apply has_id_block.
Qed.
