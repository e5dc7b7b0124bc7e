(** * C09, C10: positions *)
From Coq Require Import Permutation.
From Verif Require Import Base Location SpecLoc LocProofs.

(** ** C09 *)
Theorem C09_reconcile_span : forall start other,
  other <> [] -> span_of (start ++ other) (reconcile start other).
Proof. exact reconcile_span. Qed.
Print Assumptions C09_reconcile_span.

Theorem C09_reconcile_perm : forall start other start' other',
  Permutation (start ++ other) (start' ++ other') -> other <> [] -> other' <> [] ->
  Forall2 same_place (reconcile start other) (reconcile start' other').
Proof. exact reconcile_perm. Qed.
Print Assumptions C09_reconcile_perm.

Theorem C09_reconcile_perm_exact : forall start other start' other',
  Permutation (start ++ other) (start' ++ other') -> other <> [] -> other' <> [] ->
  one_chain (start ++ other) ->
  reconcile start other = reconcile start' other'.
Proof. exact reconcile_perm_exact. Qed.
Print Assumptions C09_reconcile_perm_exact.

Theorem C09_reconcile_again : forall start other more,
  Forall (fun x => In x (start ++ other)) more -> other <> [] -> 2 <= List.length (start ++ other) ->
  Forall2 same_place (reconcile (reconcile start other) more) (reconcile start other).
Proof. exact reconcile_again. Qed.
Print Assumptions C09_reconcile_again.

Example C09_example :
  reconcile [mkLoc 2 1 []; mkLoc 2 9 []] [mkLoc 1 3 []; mkLoc 2 4 []] = [mkLoc 1 3 []; mkLoc 2 9 []]
  /\ one_chain [mkLoc 2 1 []; mkLoc 2 9 []; mkLoc 1 3 []; mkLoc 2 4 []].
Proof.
  split; [reflexivity|]. intros a b Ha Hb _. cbn in *.
  repeat (destruct Ha as [<-|Ha]; [repeat (destruct Hb as [<-|Hb]; [reflexivity|]); destruct Hb|]). destruct Ha.
Qed.

(** ** C10: all but "equal exactly when equal", which is false: the file names are
    ignored *)
Theorem C10_order_refuted : exists a b, loc_cmp a b = Eq /\ a <> b.
Proof. exists (mkLoc 1 1 [bs "a"]), (mkLoc 1 1 [bs "b"]). split; [reflexivity | discriminate]. Qed.
Print Assumptions C10_order_refuted.

Theorem C10_order_partial :
  (forall a b, loc_cmp a b = Eq <-> same_place a b)
  /\ (forall a b, loc_cmp a b = Lt <-> not_after a b /\ ~ same_place a b)
  /\ (forall a b, loc_cmp b a = CompOpp (loc_cmp a b))
  /\ (forall a, not_after a a)
  /\ (forall a b c, not_after a b -> not_after b c -> not_after a c)
  /\ (forall a b, not_after a b \/ not_after b a)
  /\ (forall a b, not_after a b -> not_after b a -> same_place a b)
  /\ (forall a b, loc_cmp a b = Eq -> loc_file a = loc_file b -> a = b).
Proof. exact loc_order. Qed.
Print Assumptions C10_order_partial.

Example C10_example : loc_cmp (mkLoc 9 9 []) (mkLoc 1 1 [bs "a"]) = Lt /\ loc_cmp (mkLoc 2 1 []) (mkLoc 1 9 []) = Gt.
Proof. split; reflexivity. Qed.
