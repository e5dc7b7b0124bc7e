(** * C21, C24, C38, C49: cross references, includes, and how parsing ends *)
From Verif Require Import Base World Location Token Scanner Meta Inline Block Asg Parser
  SpecScan SpecGraph SpecInclude SpecRun SpecXref ScanLemmas ScanFail2 ScanStart RunProofs XrefProofs.
Local Open Scope char_scope.
Local Open Scope nat_scope.
Definition lines (l : list bytes) : bytes := List.concat (map (fun s => s ++ [NL]) l).

(** ** C21: false as stated.  True of the references standing in a block outside any span,
    list term or caption; of several blocks with the same id the last one counts.
    Missing: titles that contain references themselves (their text is taken as it was before
    the references in it were filled in). *)
Theorem C21_partial : forall w fuel origin resolve src a, parse w fuel origin resolve src = Ok a ->
  forall b t l m loc pre d post title, In b (document a) -> stands_in (IRef RXref t l m loc) b ->
  document a = pre ++ d :: post -> has_id d t -> Forall (fun x => ~ has_id x t) post ->
  title_is d title -> no_xref title -> l = title.
Proof. exact xref_filled. Qed.
Print Assumptions C21_partial.

Definition xref_sample : bytes := lines [bs "see <<s>>"; []; bs "[[s]]"; bs "== The *title*"; []; bs "text"].
Example C21_example : exists a b d x t loc, parse world0 0 [] false xref_sample = Ok a
  /\ document a = [b; d; x] /\ stands_in (IRef RXref (bs "s") t None loc) b /\ has_id d (bs "s") /\ title_is d t /\ inlines_text t = bs "The title".
Proof.
  do 6 eexists. split; [vm_compute; reflexivity|]. split; [vm_compute; reflexivity|]. split; [vm_compute; right; left; reflexivity|].
  split; [eexists; split; vm_compute; reflexivity|]. split; vm_compute; reflexivity.
Qed.

(** a reference in a footnote, in the term of a description list, in a caption *)
Theorem C21_refuted : exists src a b d t m loc title, parse world0 0 [] false src = Ok a /\ document a = [d; b]
  /\ has_id d t /\ title_is d title /\ title <> [] /\ In (IRef RXref t [] m loc) (List.concat (map (fun i => match i with ISpan _ _ l _ _ _ => l | _ => [] end) (own_inlines b))).
Proof.
  exists (lines [bs "[[s]]"; bs "== T"; []; bs "a footnote:[see <<s>>]"]). do 7 eexists. split; [vm_compute; reflexivity|].
  split; [vm_compute; reflexivity|]. split; [eexists; split; vm_compute; reflexivity|]. split; [vm_compute; reflexivity|]. split; [discriminate|].
  vm_compute. right. left. reflexivity.
Qed.
Print Assumptions C21_refuted.

Theorem C21_term_refuted : exists src a b c d t m loc title, parse world0 0 [] false src = Ok a /\ document a = [d; b; c]
  /\ has_id d t /\ title_is d title /\ title <> [] /\ In (IRef RXref t [] m loc) (own_inlines c).
Proof.
  exists (lines [bs "[[s]]"; bs "== T"; []; bs "a <<s>>:: x"]). do 8 eexists. split; [vm_compute; reflexivity|].
  split; [vm_compute; reflexivity|]. split; [eexists; split; vm_compute; reflexivity|]. split; [vm_compute; reflexivity|]. split; [discriminate|].
  vm_compute. right. left. reflexivity.
Qed.
Print Assumptions C21_term_refuted.

(** ** C24: false as stated.  True when the chains of includes are bounded and the scanner
    finishes on every text met. *)
Theorem C24_refuted : exists w src, forall fuel origin resolve, parse w fuel origin resolve src = Hang.
Proof. exists loop_world, loop_file. exact loop_never_ends. Qed.
Print Assumptions C24_refuted.

Theorem C24_partial : forall w origin src n resolve, chains_within w origin src n -> all_scanned w origin src ->
  exists least, forall fuel, least <= fuel -> parse w fuel origin resolve src <> Hang.
Proof. exact ends. Qed.
Print Assumptions C24_partial.

Definition small : bytes * bytes := (bs "x.adoc", lines [bs "one *two*"; []; bs "three"]).
Definition small_main : bytes := lines [bs "zero"; []; bs "include::x.adoc[]"].
Example C24_example : chains_within (disk [small]) [] small_main 1 /\ all_scanned (disk [small]) [] small_main
  /\ exists a b c d, parse (disk [small]) 1 [] false small_main = Ok a /\ a_blocks a = [b; c; d].
Proof.
  assert (forall path content, w_read (disk [small]) path = Some content -> content = snd small) as R.
  { intros path content. cbn. destruct (beqb path _); congruence. }
  split; [|split; [split|]].
  - apply one_level. intros path content E. rewrite (R _ _ E). apply not_occurs_one. vm_compute. reflexivity.
  - intros chain content O. destruct (opened _ _ _ _ _ O) as [[-> ->]|(path & E)]; [|rewrite (R _ _ E)]; intros K; vm_compute in K; discriminate.
  - intros s C. exfalso. revert C. apply no_cells; [apply not_occurs_one; vm_compute; reflexivity|]. intros path content E. rewrite (R _ _ E). apply not_occurs_one. vm_compute. reflexivity.
  - do 4 eexists. split; vm_compute; reflexivity.
Qed.

(** ** C38: false as stated.  True when the files named by the includes can be read and no
    text met has a table. *)
Theorem C38_refuted : exists src, forall resolve, parse world0 1 [] resolve src = Exit.
Proof. exists (lines [bs "|==="; bs "|a"; bs "|b"; bs "|==="]). intros []; vm_compute; reflexivity. Qed.
Print Assumptions C38_refuted.

Theorem C38_file_refuted : exists w src, forall resolve, parse w 1 [] resolve src = Exit.
Proof. exists (disk []), (lines [bs "include::x.adoc[]"]). intros []; vm_compute; reflexivity. Qed.
Print Assumptions C38_file_refuted.

Theorem C38_partial : forall w origin src fuel resolve,
  (forall path, included w origin src path -> w_read w path <> None) ->
  (forall chain content, opens w origin src chain content -> ~ occurs (bs "|===") content) ->
  parse w fuel origin resolve src <> Exit.
Proof. exact never_exits. Qed.
Print Assumptions C38_partial.

Example C38_example : (forall path, included (disk [small]) [] small_main path -> w_read (disk [small]) path <> None)
  /\ (forall chain content, opens (disk [small]) [] small_main chain content -> ~ occurs (bs "|===") content).
Proof.
  assert (forall path content, w_read (disk [small]) path = Some content -> content = snd small) as R.
  { intros path content. cbn. destruct (beqb path _); congruence. }
  split.
  - intros path (chain & t & target & m & Rd & T & A & C).
    destruct Rd as [chain content t O Hin | chain t0 contents x R0 T0].
    + destruct (opened _ _ _ _ _ O) as [[-> ->]|(p & E)].
      * assert (forallb (fun t => negb (tt_eqb (ttype t) TInclude) || match target_and_attrs_from_token (disk [small]) t with Ok (x, _) => beqb x (bs "x.adoc") | _ => false end)
                  (fst (scan_stream small_main [])) = true) as F by (vm_compute; reflexivity).
        rewrite forallb_forall in F. specialize (F t Hin). rewrite T, A in F. apply beqb_eq in F. subst target. cbn in C. injection C as <-. vm_compute. discriminate.
      * exfalso. rewrite (R _ _ E) in Hin. assert (ttype t <> TInclude) as N; [|exact (N T)].
        intros E'. destruct (stream_openers _ _ _ [bs "include::"] Hin) as (q & [<-|[]] & Q); [rewrite E'; reflexivity|]. revert Q. apply not_occurs_one. vm_compute. reflexivity.
    + exfalso. eapply (no_cells (disk [small]) [] small_main); [| |exists chain, t0; split; [exact R0|split; [exact T0|eassumption]]].
      * apply not_occurs_one. vm_compute. reflexivity.
      * intros p content E. rewrite (R _ _ E). apply not_occurs_one. vm_compute. reflexivity.
  - intros chain content O. apply not_occurs_one. destruct (opened _ _ _ _ _ O) as [[-> ->]|(p & E)]; [|rewrite (R _ _ E)]; vm_compute; reflexivity.
Qed.

(** ** C49 *)
Theorem C49_flat : forall w fuel origin resolve src,
  ~ occurs (bs "include::") src -> ~ occurs (bs "|") src -> scan_with src [] <> Hang ->
  parse w fuel origin resolve src <> Hang /\ parse w fuel origin resolve src <> Exit.
Proof. exact flat_ends. Qed.
Print Assumptions C49_flat.

Theorem C49_tame : forall w fuel origin resolve src, tame src -> ~ occurs (bs "|") src ->
  parse w fuel origin resolve src <> Hang /\ parse w fuel origin resolve src <> Exit.
Proof. exact tame_ends. Qed.
Print Assumptions C49_tame.

Example C49_example : tame (lines [bs "= T"; []; bs ":a: b"; []; bs "[role]"; bs "*b* {a} &x;"]) /\ ~ occurs (bs "|") (lines [bs "= T"; []; bs ":a: b"; []; bs "[role]"; bs "*b* {a} &x;"]).
Proof.
  split; [|apply not_occurs_one; vm_compute; reflexivity]. split; [|split].
  - repeat (apply Forall_cons; [reflexivity|]). apply Forall_nil.
  - right. eexists (bs "= T" ++ [NL; NL] ++ bs ":a: b" ++ [NL; NL] ++ bs "[role]" ++ [NL] ++ bs "*b* {a} &x;"). reflexivity.
  - apply not_occurs_by. vm_compute. reflexivity.
Qed.
