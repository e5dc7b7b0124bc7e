(** * C22, C23, C50, C51: line numbers, and what an include directive takes in *)
From Verif Require Import Base World Location Token Scanner Meta Inline Block Asg Parser
  SpecScan SpecInclude SpecWords SpecSelect SelectProofs.
Local Open Scope char_scope.
Local Open Scope nat_scope.
Definition lines (l : list bytes) : bytes := List.concat (map (fun s => s ++ [NL]) l).

(** ** C50: the line of a token is one more than the number of line-ending tokens before it *)
Theorem C50_token_line : forall src files ts sc pre t post, yields src files ts sc -> ts = pre ++ t :: post ->
  tline t = 1 + line_ends pre.
Proof. exact token_line. Qed.
Print Assumptions C50_token_line.
Example C50_example : exists ts pre t, scan (lines [bs "a"; bs "b *c*"; []; bs "d"]) = Ok ts /\ ts = pre ++ [t] /\ tline t = 5 /\ line_ends pre = 4.
Proof. do 3 eexists. split; [vm_compute; reflexivity|]. split; [apply (app_removelast_last (final_token 0 [])); discriminate|]. split; vm_compute; reflexivity. Qed.

(** ** C51: with lines and tags, the lines are selected first, then the tags among them *)
Theorem C51_lines_then_tags : forall w rec t p target m content ts1 ts2, names w t p target m content ->
  by_lines m (fst (scan_stream content (p_files p ++ [target]))) ts1 -> by_tags m ts1 ts2 ->
  parse_include w rec t p = take_in rec (is_adoc target) target ts2 (snd (scan_stream content (p_files p ++ [target]))) p.
Proof. exact include_takes. Qed.
Print Assumptions C51_lines_then_tags.

(** ** C22: false as stated.  True when an open range comes last and does not start at 0, the
    numbers fit in 32 bits and some line number is selected at all. *)
Theorem C22_partial : forall w rec t p target m content v l, names w t p target m content ->
  mget (bs "lines") (m_attrs m) = Some v -> mget (bs "tag") (m_attrs m) = None -> mget (bs "tags") (m_attrs m) = None ->
  chooses l v -> usable l ->
  parse_include w rec t p
  = take_in rec (is_adoc target) target (filter (fun t => wants l (tline t)) (fst (scan_stream content (p_files p ++ [target]))))
            (snd (scan_stream content (p_files p ++ [target]))) p.
Proof. exact include_lines. Qed.
Print Assumptions C22_partial.

Definition main (attrs : bytes) : bytes := lines [bs "include::x.adoc[" ++ attrs ++ bs "]"].
Definition six : bytes := lines [bs "one"; bs "two"; bs "three"; bs "four"; bs "five"; bs "six"].
Definition shows (file attrs : bytes) (l : list bytes) : Prop :=
  exists a, parse (disk [(bs "x.adoc", file)]) 2 [] false (main attrs) = Ok a /\ List.concat (map texts (a_blocks a)) = l.
Example C22_example : exists t m, hd_error (fst (scan_stream (main (bs "lines=2..3;5..")) [])) = Some t
  /\ names (disk [(bs "x.adoc", six)]) t (new_parser [] false) (bs "x.adoc") m six
  /\ mget (bs "lines") (m_attrs m) = Some (bs "2..3;5..") /\ mget (bs "tag") (m_attrs m) = None /\ mget (bs "tags") (m_attrs m) = None
  /\ chooses [Through 2 3; Onward 5] (bs "2..3;5..") /\ usable [Through 2 3; Onward 5].
Proof.
  do 2 eexists. split; [vm_compute; reflexivity|]. split; [split; [vm_compute; reflexivity|]; split; [reflexivity|]; eexists; split; vm_compute; reflexivity|].
  do 3 (split; [vm_compute; reflexivity|]). split.
  - apply (chooses_more (Through 2 3) (bs "2..3") ";" [Onward 5] (bs "5..")); [|now right|].
    + apply (writes_through (bs "2") 2 (bs "3") 3); constructor; (split; [reflexivity|lia]).
    + constructor. apply (writes_onward (bs "5") 5). constructor. split; [reflexivity|lia].
  - right. exists [Through 2 3], 5. split; [reflexivity|]. split; [|split; [cbv; reflexivity|discriminate]].
    constructor; [split; cbv; reflexivity|constructor].
Qed.
Example C22_shown : shows six (bs "lines=2..3;5..") [lines [bs "two"; bs "three"; bs "five"] ++ bs "six"].
Proof. eexists. split; vm_compute; reflexivity. Qed.

(** an empty range selects everything *)
Theorem C22_refuted : exists l v, chooses l v /\ (forall n, wants l n = false) /\ shows six (bs "lines=" ++ v) [removelast six].
Proof.
  exists [Through 5 2], (bs "5..2"). split.
  - constructor. apply (writes_through (bs "5") 5 (bs "2") 2); constructor; (split; [reflexivity|lia]).
  - split; [|eexists; split; vm_compute; reflexivity]. intros n. unfold wants. cbn [existsb picks]. rewrite orb_false_r.
    destruct (Nat.leb_spec 5 n); [|reflexivity]. destruct (Nat.leb_spec n 2); [lia|reflexivity].
Qed.
Print Assumptions C22_refuted.
(** an open range that is not the last is dropped; one from line 0 selects nothing *)
Theorem C22_order_refuted : exists l v, chooses l v /\ (forall n, wants l n = (Nat.leb 5 n || Nat.eqb n 1)) /\ shows six (bs "lines=" ++ v) [bs "one"].
Proof.
  exists [Onward 5; Just 1], (bs "5..;1"). split.
  - apply (chooses_more (Onward 5) (bs "5..") ";" [Just 1] (bs "1")); [|now right|].
    + apply (writes_onward (bs "5") 5). constructor. split; [reflexivity|lia].
    + constructor. apply (writes_just (bs "1") 1). constructor. split; [reflexivity|lia].
  - split; [|eexists; split; vm_compute; reflexivity]. intros n. unfold wants. cbn [existsb picks]. now rewrite orb_false_r.
Qed.
Print Assumptions C22_order_refuted.
Theorem C22_zero_refuted : exists l v, chooses l v /\ (forall n, wants l n = true) /\ shows six (bs "lines=" ++ v) [].
Proof.
  exists [Onward 0], (bs "0.."). split.
  - constructor. apply (writes_onward (bs "0") 0). constructor. split; [reflexivity|lia].
  - split; [|eexists; split; vm_compute; reflexivity]. intros n. reflexivity.
Qed.
Print Assumptions C22_zero_refuted.

(** ** C23: false as stated.  True when the scanner yields well formed directives and those of
    the selected tags are not nested. *)
Theorem C23_partial : forall w rec t p target m content tags ts, names w t p target m content ->
  mget (bs "lines") (m_attrs m) = None -> asks m tags -> tags <> [] ->
  well_formed (fst (scan_stream content (p_files p ++ [target]))) ->
  not_nested tags (fst (scan_stream content (p_files p ++ [target]))) ->
  tagged tags [] (fst (scan_stream content (p_files p ++ [target]))) ts ->
  parse_include w rec t p = take_in rec (is_adoc target) target ts (snd (scan_stream content (p_files p ++ [target]))) p.
Proof. exact include_tags. Qed.
Print Assumptions C23_partial.

Definition parts : bytes := lines [bs "zero"; bs "// tag::a[]"; bs "one"; bs "// end::a[]"; bs "two"].
Example C23_example : exists t m ts, hd_error (fst (scan_stream (main (bs "tag=a")) [])) = Some t
  /\ names (disk [(bs "x.adoc", parts)]) t (new_parser [] false) (bs "x.adoc") m parts
  /\ mget (bs "lines") (m_attrs m) = None /\ asks m [bs "a"]
  /\ well_formed (fst (scan_stream parts [bs "x.adoc"])) /\ not_nested [bs "a"] (fst (scan_stream parts [bs "x.adoc"]))
  /\ tagged [bs "a"] [] (fst (scan_stream parts [bs "x.adoc"])) ts /\ map lexeme ts = [bs "on"; bs "e"; [NL]].
Proof.
  do 3 eexists. split; [vm_compute; reflexivity|]. split; [split; [vm_compute; reflexivity|]; split; [reflexivity|]; eexists; split; vm_compute; reflexivity|].
  split; [vm_compute; reflexivity|]. split. { exists [bs "a"], []. split; [reflexivity|]. split; vm_compute; reflexivity. }
  match goal with |- well_formed ?l /\ _ => let l' := eval vm_compute in l in change l with l' end.
  assert (forall g t, ttype t <> TStartTag -> ~ opens_tag g t) as NO. { intros g t H [X _]. contradiction. }
  assert (forall g t, ttype t <> TEndTag -> ~ closes_tag g t) as NC. { intros g t H [X _]. contradiction. }
  split. { repeat (apply Forall_cons; [split; (intros X; first [discriminate X | exists (bs "a"); split; [split; reflexivity|vm_compute; reflexivity]])|]). apply Forall_nil. }
  split.
  - intros pre t post g E [<-|[]]. split.
    + intros O. assert (Forall (fun x => ttype x <> TStartTag) pre) as F.
      { destruct O as [O _].
        do 4 (destruct pre as [|x pre]; [injection E as <- _; discriminate O|injection E as <- E]).
        destruct pre as [|x pre]; [repeat (apply Forall_cons; [discriminate|]); apply Forall_nil|]. injection E as <- E. exfalso.
        repeat (destruct pre as [|x pre]; [injection E as <- _; discriminate O|injection E as <- E]). destruct pre; discriminate E. }
      intros (h & _ & a & s & b & -> & [S _] & _). apply Forall_app in F as [_ F]. apply Forall_inv in F. contradiction.
    + intros _ (h & [<-|[]] & I). exact I.
  - assert (forall pre, Forall (fun x => ttype x <> TStartTag) pre -> ~ within [bs "a"] pre) as OUT.
    { intros pre F (h & _ & a & x & b & -> & [S _] & _). apply Forall_app in F as [_ F]. apply Forall_inv in F. contradiction. }
    assert (forall pre t, within [bs "a"] pre -> ~ closes_tag (bs "a") t -> within [bs "a"] (pre ++ [t])) as ON.
    { intros pre t (h & [<-|[]] & I) N. exists (bs "a"). split; [left; reflexivity|]. apply inside_snoc. right. auto. }
    assert (forall t, ttype t <> TStartTag -> ttype t <> TEndTag -> ~ marks [bs "a"] t) as NM.
    { intros t A B (h & _ & [[X _]|[X _]]); contradiction. }
    split.
    + do 4 (apply tagged_out; [apply OUT; repeat (apply Forall_cons; [discriminate|]); apply Forall_nil|]).
      apply tagged_mark; [exists (bs "a"); split; [left; reflexivity|left; split; reflexivity]|].
      match goal with |- tagged _ ?pre _ _ => assert (within [bs "a"] pre) as W by (exists (bs "a"); split; [left; reflexivity|apply inside_snoc; left; split; reflexivity]) end.
      do 3 (match goal with |- tagged _ ?pre (?t :: _) _ => assert (within [bs "a"] (pre ++ [t])) as W' by (apply ON; [exact W|apply NC; discriminate]) end;
            apply tagged_in; [exact W|apply NM; discriminate|]; clear W; rename W' into W).
      apply tagged_mark; [exists (bs "a"); split; [left; reflexivity|right; split; reflexivity]|].
      match goal with |- tagged _ ?pre _ _ => assert (~ within [bs "a"] pre) as V end.
      { intros (h & [<-|[]] & X). apply inside_snoc in X as [[X _]|[_ X]]; [discriminate X|]. apply X. split; reflexivity. }
      assert (forall pre t, ~ within [bs "a"] pre -> ttype t <> TStartTag -> ~ within [bs "a"] (pre ++ [t])) as OFF.
      { intros pre t N A (h & Hh & X). apply inside_snoc in X as [[X _]|[X _]]; [contradiction|]. apply N. exists h. auto. }
      do 3 (match goal with |- tagged _ ?pre (?t :: _) _ => assert (~ within [bs "a"] (pre ++ [t])) as V' by (apply OFF; [exact V|discriminate]) end;
            apply tagged_out; [exact V|]; clear V; rename V' into V). apply tagged_nil.
    + reflexivity.
Qed.
Definition region : bytes := lines [bs "// tag::a[]"; bs "one"; bs "two"; bs "three"; bs "// end::a[]"; bs "four"].
Example C51_shown : shows region (bs "lines=1;3..6,tag=a") [lines [bs "two"] ++ bs "three"] /\ shows region (bs "lines=3..6,tag=a") [].
Proof. split; eexists; split; vm_compute; reflexivity. Qed.
Example C23_shown : shows parts (bs "tag=a") [bs "one"].
Proof. eexists. split; vm_compute; reflexivity. Qed.

(** a region inside a region: its text is lost even though the outer tag is selected; a
    directive not in a comment makes the scanner run on for ever *)
Theorem C23_refuted : exists file, file = lines [bs "tag::a[]"; bs "one"; bs "tag::b[]"; bs "two"; bs "end::b[]"; bs "three"; bs "end::a[]"]
  /\ shows file (bs "tag=a") [lines [bs "one"] ++ bs "three"].
Proof. eexists. split; [reflexivity|]. eexists. split; vm_compute; reflexivity. Qed.
Print Assumptions C23_refuted.
Theorem C23_hang_refuted : exists file, file = lines [bs "tag::a[]"; bs "one"; bs "end::a[]"; bs "two"]
  /\ parse (disk [(bs "x.adoc", file)]) 2 [] false (main (bs "tag=a")) = Hang.
Proof. eexists. split; [reflexivity|]. vm_compute. reflexivity. Qed.
Print Assumptions C23_hang_refuted.
