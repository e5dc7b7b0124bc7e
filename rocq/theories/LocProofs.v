(** * Proofs about positions *)
From Coq Require Import Permutation Sorted.
From Verif Require Import Base Location SpecLoc.

Lemma loc_leb_iff a b : loc_leb a b = true <-> not_after a b.
Proof.
  unfold loc_leb, loc_cmp, not_after, depth.
  destruct (Nat.eqb_spec (List.length (loc_file a)) (List.length (loc_file b))) as [E|E].
  - destruct (Nat.eqb_spec (loc_line a) (loc_line b)) as [E'|E'].
    + destruct (Nat.compare_spec (loc_col a) (loc_col b)); split; intros; try lia; try discriminate; auto.
    + destruct (Nat.compare_spec (loc_line a) (loc_line b)); split; intros; try lia; try discriminate; auto.
  - destruct (Nat.compare_spec (List.length (loc_file a)) (List.length (loc_file b))); split; intros; try lia; try discriminate; auto.
Qed.
Lemma loc_cmp_eq a b : loc_cmp a b = Eq <-> same_place a b.
Proof.
  unfold loc_cmp, same_place, depth.
  destruct (Nat.eqb_spec (List.length (loc_file a)) (List.length (loc_file b))) as [E|E];
  [destruct (Nat.eqb_spec (loc_line a) (loc_line b)) as [E'|E']|];
  rewrite Nat.compare_eq_iff; tauto.
Qed.
Lemma loc_cmp_antisym a b : loc_cmp b a = CompOpp (loc_cmp a b).
Proof.
  unfold loc_cmp.
  rewrite (Nat.eqb_sym (List.length (loc_file b))), (Nat.eqb_sym (loc_line b)).
  repeat match goal with |- context[if ?b then _ else _] => destruct b end; apply Nat.compare_antisym.
Qed.
Lemma loc_cmp_lt a b : loc_cmp a b = Lt <-> not_after a b /\ ~ same_place a b.
Proof.
  rewrite <- loc_cmp_eq, <- loc_leb_iff. unfold loc_leb. destruct (loc_cmp a b); intuition congruence.
Qed.
Lemma not_after_refl a : not_after a a.
Proof. unfold not_after. lia. Qed.
Lemma not_after_trans a b c : not_after a b -> not_after b c -> not_after a c.
Proof. unfold not_after. lia. Qed.
Lemma not_after_total a b : not_after a b \/ not_after b a.
Proof. unfold not_after. lia. Qed.
Lemma not_after_antisym a b : not_after a b -> not_after b a -> same_place a b.
Proof. unfold not_after, same_place. lia. Qed.
Lemma same_place_equal a b : same_place a b -> loc_file a = loc_file b -> a = b.
Proof. destruct a, b. unfold same_place. cbn. intros (_ & -> & ->) ->. reflexivity. Qed.

Lemma insert_perm x l : Permutation (x :: l) (loc_insert x l).
Proof.
  induction l as [|y l IH]; cbn; [auto|]. destruct (loc_leb x y); [auto|].
  eapply perm_trans; [apply perm_swap|]. now constructor.
Qed.
Lemma sort_perm l : Permutation l (loc_sort l).
Proof.
  induction l as [|x l IH]; cbn; [auto|]. eapply perm_trans; [|apply insert_perm]. now constructor.
Qed.
Lemma insert_sorted x l : StronglySorted not_after l -> StronglySorted not_after (loc_insert x l).
Proof.
  induction 1 as [|y l Hs IH Hf]; cbn; [repeat constructor|].
  destruct (loc_leb x y) eqn:E.
  - apply loc_leb_iff in E. constructor; [now constructor|]. constructor; [exact E|].
    eapply Forall_impl; [|exact Hf]. intros z. apply not_after_trans. exact E.
  - assert (not_after y x) as Hyx.
    { destruct (not_after_total x y) as [K|K]; [apply loc_leb_iff in K; congruence | exact K]. }
    constructor; [exact IH|]. eapply Permutation_Forall; [apply insert_perm|]. now constructor.
Qed.
Lemma sort_sorted l : StronglySorted not_after (loc_sort l).
Proof. induction l; cbn; [constructor | now apply insert_sorted]. Qed.

Lemma last_in {A} (l : list A) d : l <> [] -> In (last l d) l.
Proof.
  induction l as [|x [|y l] IH]; intros H; [now elim H | now left|]. right. apply IH. discriminate.
Qed.
Lemma sorted_last l d : StronglySorted not_after l -> l <> [] -> Forall (fun x => not_after x (last l d)) l.
Proof.
  induction 1 as [|x l Hs IH Hf]; intros H; [now elim H|].
  destruct l as [|y l].
  - constructor; [apply not_after_refl | constructor].
  - change (last (x :: y :: l) d) with (last (y :: l) d).
    constructor; [|apply IH; discriminate].
    rewrite Forall_forall in Hf. apply Hf, last_in. discriminate.
Qed.

Lemma ends_span l : l <> [] -> span_of l (ends_of (loc_sort l)).
Proof.
  intros Hl. pose proof (sort_perm l) as P. pose proof (sort_sorted l) as S.
  destruct (loc_sort l) as [|x r] eqn:E.
  - apply Permutation_sym, Permutation_nil in P. contradiction.
  - destruct r as [|y r].
    + cbn. apply span_one. now apply Permutation_sym, Permutation_length_1_inv in P.
    + change (ends_of (x :: y :: r)) with [x; last (y :: r) x].
      pose proof (sorted_last _ x S ltac:(discriminate)) as HL.
      change (last (x :: y :: r) x) with (last (y :: r) x) in HL.
      apply span_two.
      * rewrite (Permutation_length P). cbn. lia.
      * eapply Permutation_in; [apply Permutation_sym, P|]. now left.
      * eapply Permutation_in; [apply Permutation_sym, P|]. right. apply last_in. discriminate.
      * eapply Permutation_Forall; [apply Permutation_sym, P|].
        apply Forall_forall. intros z Hz. split.
        -- destruct Hz as [<-|Hz]; [apply not_after_refl|].
           inversion S as [|? ? ? Hf]. subst. rewrite Forall_forall in Hf. now apply Hf.
        -- rewrite Forall_forall in HL. now apply HL.
Qed.

Lemma reconcile_span start other : other <> [] -> span_of (start ++ other) (reconcile start other).
Proof.
  intros H. unfold reconcile. destruct other as [|o other]; [now elim H|].
  apply ends_span. destruct start; discriminate.
Qed.

Lemma Permutation_app_ne {A} (a b c d : list A) : Permutation (a ++ b) (c ++ d) -> b <> [] -> c ++ d <> [].
Proof. intros P H E. rewrite E in P. apply Permutation_sym, Permutation_nil, app_eq_nil in P. tauto. Qed.

Lemma span_perm l l' s s' : Permutation l l' -> span_of l s -> span_of l' s' -> Forall2 same_place s s'.
Proof.
  intros P H H'. destruct H as [a E | a b Hn Ha Hb Hf]; destruct H' as [a' E' | a' b' Hn' Ha' Hb' Hf'].
  - subst. apply Permutation_length_1 in P. subst. repeat constructor.
  - subst. apply Permutation_length in P. cbn in P. lia.
  - subst. apply Permutation_length in P. cbn in P. lia.
  - rewrite Forall_forall in Hf, Hf'.
    assert (forall x, In x l' -> In x l) as I1 by (intros x; apply Permutation_in; now apply Permutation_sym).
    assert (forall x, In x l -> In x l') as I2 by (intros x; now apply Permutation_in).
    repeat constructor; apply not_after_antisym; first [apply Hf | apply Hf']; auto.
Qed.

Lemma reconcile_perm start other start' other' :
  Permutation (start ++ other) (start' ++ other') -> other <> [] -> other' <> [] ->
  Forall2 same_place (reconcile start other) (reconcile start' other').
Proof. intros P H H'. eapply span_perm; [exact P| |]; now apply reconcile_span. Qed.

Lemma span_in l s x : span_of l s -> In x s -> In x l.
Proof.
  destruct 1 as [a E | a b Hn Ha Hb Hf]; cbn.
  - intros [<-|[]]. rewrite E. now left.
  - intros [<-|[<-|[]]]; assumption.
Qed.

Lemma reconcile_perm_exact start other start' other' :
  Permutation (start ++ other) (start' ++ other') -> other <> [] -> other' <> [] ->
  one_chain (start ++ other) ->
  reconcile start other = reconcile start' other'.
Proof.
  intros P H H' C. pose proof (reconcile_perm _ _ _ _ P H H') as F.
  pose proof (reconcile_span start other H) as S. pose proof (reconcile_span start' other' H') as S'.
  assert (forall x, In x (reconcile start other) -> In x (start ++ other)) as I1
    by (intros x Hx; eapply span_in; eauto).
  assert (forall x, In x (reconcile start' other') -> In x (start ++ other)) as I2
    by (intros x Hx; eapply Permutation_in; [apply Permutation_sym, P|]; eapply span_in; eauto).
  clear S S'. revert I1 I2. induction F as [|a b s s' Hab F IH]; intros; [reflexivity|].
  f_equal.
  - apply same_place_equal; [exact Hab|]. apply C; [apply I1; now left | apply I2; now left | apply Hab].
  - apply IH; intros; [apply I1 | apply I2]; now right.
Qed.

(** what lies within a span does not move it *)
Lemma reconcile_again start other more :
  Forall (fun x => In x (start ++ other)) more -> other <> [] -> 2 <= List.length (start ++ other) ->
  Forall2 same_place (reconcile (reconcile start other) more) (reconcile start other).
Proof.
  intros Hm Ho Hn. pose proof (reconcile_span start other Ho) as S.
  destruct S as [a E | a b _ Ha Hb Hf]; [rewrite E in Hn; cbn in Hn; lia|].
  destruct more as [|m more].
  - repeat constructor.
  - pose proof (reconcile_span [a; b] (m :: more) ltac:(discriminate)) as S2.
    rewrite Forall_forall in Hf, Hm.
    assert (forall x, In x ([a; b] ++ m :: more) -> In x (start ++ other)) as I.
    { intros x Hx. apply in_app_or in Hx as [[<-|[<-|[]]]|Hx]; auto. }
    destruct S2 as [c E | c d _ Hc Hd Hf2]; [discriminate|].
    rewrite Forall_forall in Hf2.
    repeat constructor; apply not_after_antisym; first [apply Hf; auto | apply Hf2; cbn; auto].
Qed.

Lemma loc_order :
  (forall a b, loc_cmp a b = Eq <-> same_place a b)
  /\ (forall a b, loc_cmp a b = Lt <-> not_after a b /\ ~ same_place a b)
  /\ (forall a b, loc_cmp b a = CompOpp (loc_cmp a b))
  /\ (forall a, not_after a a)
  /\ (forall a b c, not_after a b -> not_after b c -> not_after a c)
  /\ (forall a b, not_after a b \/ not_after b a)
  /\ (forall a b, not_after a b -> not_after b a -> same_place a b)
  /\ (forall a b, loc_cmp a b = Eq -> loc_file a = loc_file b -> a = b).
Proof.
  repeat match goal with |- _ /\ _ => split end.
  - apply loc_cmp_eq.
  - apply loc_cmp_lt.
  - apply loc_cmp_antisym.
  - apply not_after_refl.
  - apply not_after_trans.
  - apply not_after_total.
  - apply not_after_antisym.
  - intros a b H. apply loc_cmp_eq in H. now apply same_place_equal.
Qed.
