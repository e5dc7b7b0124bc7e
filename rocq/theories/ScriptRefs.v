(** * Scripts: cross references *)
From Verif Require Import Base World Location Token Scanner Meta Inline Block Asg Parser SpecXref GraphLemmas TreeInd Runs RunProofs XrefProofs
  ScriptDecor SpecScript.
Local Open Scope nat_scope.

Lemma ends_steps w fuel origin resolve ts p q : parse_loop w fuel ts (set_asg new_asg (new_parser origin resolve)) = Ok p ->
  (let* p := add_inlines_to_block_stack p in flush_to 0 p) = Ok q -> steps w new_asg (p_asg q).
Proof.
  intros E1 E2. set (p0 := set_asg new_asg (new_parser origin resolve)) in *.
  assert (runs w true true p0 (parse_loop w fuel ts p0)) as [_ R].
  { apply (r_parse_loop w true true (fun _ _ _ => True) origin); auto; intros; try split; try (apply Forall_forall; auto); apply sane_cases; auto. }
  apply R in E1 as (_ & _ & _ & S1).
  assert (runs w true true p (let* p := add_inlines_to_block_stack p in flush_to 0 p)) as [_ R2].
  { apply runs_bind; [apply r_add_inlines|]. intros p' _. apply r_flush_to. }
  apply R2 in E2 as (_ & _ & _ & S2). eapply steps_trans; [exact S1|exact S2].
Qed.
Lemma key_unplaced b : id_of (unplaced b) = fst (key b) /\ SpecScript.title_of (unplaced b) = map unplaced_inline (snd (key b)).
Proof.
  unfold id_of, SpecScript.title_of, key, block_id, block_title, element_id. destruct b as [h m k loc]. cbn [unplaced b_meta b_head fst snd]. split.
  - destruct m as [m|]; [|reflexivity]. cbn. symmetry. apply lookup_get.
  - destruct h; reflexivity.
Qed.
Lemma unplaced_order b : in_order (unplaced b) = map unplaced (in_order b).
Proof.
  induction b as [h m k loc IH] using block_ind'. cbn. f_equal. rewrite map_map. induction k as [|x k IHk]; [reflexivity|].
  apply Forall_cons_iff in IH as [I1 I2]. cbn. rewrite map_app, I1. f_equal. now apply IHk.
Qed.
Lemma unplaced_orders l : List.concat (map in_order (map unplaced l)) = map unplaced (List.concat (map in_order l)).
Proof. induction l as [|x l IH]; [reflexivity|]. cbn. now rewrite map_app, unplaced_order, IH. Qed.
Lemma lookup_last {A} t (l : list (bytes * A)) i v : lookup t (rev (l ++ [(i, v)])) = if beqb i t then Some v else lookup t (rev l).
Proof. rewrite rev_app_distr. cbn. unfold lookup. cbn. destruct (beqb i t); reflexivity. Qed.
Lemma names_get t l : lookup t (rev (names (map unplaced l))) = option_map (map unplaced_inline) (last_of t (keys l) None).
Proof.
  unfold names. rewrite unplaced_orders, map_map. unfold keys. generalize (List.concat (map in_order l)). clear l. intros l.
  induction l as [|b l IH] using rev_ind; [reflexivity|]. rewrite !map_app, concat_app, last_of_app. cbn [map List.concat]. rewrite app_nil_r.
  destruct (key_unplaced b) as [-> ->]. destruct (key b) as [[i|] ti]; cbn [fst snd last_of].
  - rewrite lookup_last, beqb_sym. destruct (beqb t i); [reflexivity|exact IH].
  - now rewrite app_nil_r.
Qed.
Lemma refer_unplaced ids ns : (forall t, lookup t (rev ns) = option_map (map unplaced_inline) (mget t ids)) ->
  forall i, unplaced_inline (xref_standardize ids i) = refer ns (unplaced_inline i).
Proof.
  intros H i. destruct i as [| v t k m loc| |]; try reflexivity. destruct v; try reflexivity. cbn. rewrite H. now destruct (mget t ids).
Qed.
Lemma refer_all ids ns : (forall t, lookup t (rev ns) = option_map (map unplaced_inline) (mget t ids)) ->
  forall b, unplaced (map_inlines (xref_standardize ids) b) = refer_block ns (unplaced b).
Proof.
  intros H. assert (forall l, map unplaced_inline (map (xref_standardize ids) l) = map (refer ns) (map unplaced_inline l)) as L.
  { intros l. rewrite !map_map. apply map_ext. now apply refer_unplaced. }
  induction b as [h m k loc IH] using block_ind'. cbn [map_inlines unplaced refer_block]. f_equal.
  - destruct h; cbn [map_own_inlines unplaced_head refer_head]; rewrite ?L; reflexivity.
  - rewrite !map_map. apply map_ext_in. rewrite Forall_forall in IH. exact IH.
Qed.
Lemma consolidated w a : steps w new_asg a -> map unplaced (a_blocks (asg_consolidate a)) = referred (map unplaced (a_blocks a)).
Proof.
  intros H. pose proof (steps_ids w new_asg a H (fun id => eq_refl)) as K. unfold asg_consolidate, referred. cbn [a_blocks]. rewrite !map_map.
  apply map_ext. apply refer_all. intros t. now rewrite names_get, K.
Qed.
