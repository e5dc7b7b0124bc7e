(** * C04, C05, C41-C43, C61: where the scanner fails to go on *)
From Verif Require Import Base Location Token Scanner SpecScan ScanFail2 ScanPanic.
Local Open Scope char_scope.
Local Open Scope nat_scope.

(** ** C04: false as stated.  True of every place where none of the constructs of
    [unclosed] starts (no include tag before).  Missing: the places after an include
    tag. *)
Theorem C04_never_hangs_refuted : exists src, utf8 src /\ reaches src Hang.
Proof.
  exists (bs "image:x.png[alt"). split.
  - apply ascii_utf8. repeat (apply Forall_cons; [reflexivity|]). apply Forall_nil.
  - exists [], (new (bs "image:x.png[alt")). split; [constructor | vm_compute; reflexivity].
Qed.
Print Assumptions C04_never_hangs_refuted.

Theorem C04_never_hangs_partial : forall src files pre sc rest,
  yields src files pre sc -> no_tags pre -> utf8 src -> src = text_of pre ++ rest ->
  ~ unclosed (text_of pre) rest -> next sc <> Hang.
Proof. exact never_hangs. Qed.
Print Assumptions C04_never_hangs_partial.

(** ** C05: false as stated.  True of every place where none of the constructs of
    [breaks] starts (no include tag before), and C61 says that it is false at all others.
    Missing: the places after an include tag. *)
Theorem C05_never_panics_refuted : exists src, utf8 src /\ reaches src Panic.
Proof.
  exists (bs "{b"). split.
  - apply ascii_utf8. repeat (apply Forall_cons; [reflexivity|]). apply Forall_nil.
  - exists [], (new (bs "{b")). split; [constructor | vm_compute; reflexivity].
Qed.
Print Assumptions C05_never_panics_refuted.

Theorem C05_never_panics_partial : forall src files pre sc rest,
  yields src files pre sc -> no_tags pre -> utf8 src -> src = text_of pre ++ rest ->
  ~ breaks (text_of pre) rest -> next sc <> Panic.
Proof. exact never_panics. Qed.
Print Assumptions C05_never_panics_partial.

(** ** C41 *)
Theorem C41_hangs_exactly : forall src files pre sc rest,
  yields src files pre sc -> no_tags pre -> utf8 src -> src = text_of pre ++ rest ->
  (next sc = Hang <-> unclosed (text_of pre) rest).
Proof. exact hangs_iff. Qed.
Print Assumptions C41_hangs_exactly.

Example C41_example : unclosed (bs "a" ++ [NL]) (bs ":name: value without an end of line").
Proof.
  apply (un_attribute _ (bs "name") (bs " value without an end of line")).
  - right. exists (bs "a"). reflexivity.
  - repeat (apply Forall_cons; [cbn; intros K; repeat (destruct K as [K|K]; [discriminate|]); exact K|]). apply Forall_nil.
  - cbn. intros K; repeat (destruct K as [K|K]; [discriminate|]); exact K.
Qed.

(** ** C61 *)
Theorem C61_panics_exactly : forall src files pre sc rest,
  yields src files pre sc -> no_tags pre -> utf8 src -> src = text_of pre ++ rest ->
  (next sc = Panic <-> breaks (text_of pre) rest).
Proof. exact panics_iff. Qed.
Print Assumptions C61_panics_exactly.

(** the link that ends in a letter with an accent, and the one that a space ends before it *)
Example C61_example :
  breaks (bs "a ") (bs "http://x.de/caf" ++ ["195"; "169"; "010"])
  /\ scan (bs "a http://x.de/caf" ++ ["195"; "169"; "010"]) = Panic
  /\ exists ts, scan (bs "a http://x.de/caf " ++ ["195"; "169"; "010"]) = Ok ts.
Proof.
  split; [|split].
  - apply (br_link _ (bs "://x.de/caf")); [| |discriminate].
    + repeat (apply Forall_cons; [split; [reflexivity|split; [discriminate|split; [discriminate|]]]; intros [_ K]; try discriminate K; cbn; tauto|]). apply Forall_nil.
    + intros t c E. apply (f_equal (@List.rev ascii)) in E. rewrite rev_unit in E. injection E as <- _. intros [_ K]. discriminate K.
  - vm_compute. reflexivity.
  - eexists. vm_compute. reflexivity.
Qed.

(** ** C42 *)
Theorem C42_tame_scanned : forall src files, tame src ->
  (exists ts, scan_with src files = Ok ts) \/ (exists e, scan_with src files = Err e).
Proof. exact tame_never_fails. Qed.
Print Assumptions C42_tame_scanned.

Example C42_example : tame (bs "= T" ++ [NL; NL] ++ bs ":a: b" ++ [NL; NL] ++ bs "[role]" ++ [NL] ++ bs "*b* {a} &x;" ++ [NL]).
Proof.
  split; [|split].
  - repeat (apply Forall_cons; [reflexivity|]). apply Forall_nil.
  - right. eexists (bs "= T" ++ [NL; NL] ++ bs ":a: b" ++ [NL; NL] ++ bs "[role]" ++ [NL] ++ bs "*b* {a} &x;"). reflexivity.
  - apply not_occurs_by. vm_compute. reflexivity.
Qed.
