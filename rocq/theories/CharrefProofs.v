(** * Lemmas on the character references that docx replaces *)
From Verif Require Import Base World Location Token Meta Inline Block Asg SpecLevel Docx SpecScan SpecText SpecDocx ScanLemmas GraphLemmas LevelProofs TreeInd DocGraph TextProofs MetaProofs DocxProofs.
Local Open Scope char_scope.
Local Open Scope nat_scope.

Lemma mget_key v (m : list (bytes * bytes)) x : mget v m = Some x -> In v (map fst m).
Proof.
  intros H. apply mget_some in H. now apply (in_map fst) in H.
Qed.
Lemma kept v : ~ In v (map fst replaced) -> value_or_refd_char LCharref v = v.
Proof.
  intros N. unfold value_or_refd_char. destruct (mget v charref_map) eqn:E; [|reflexivity]. exfalso. apply N. apply mget_key in E.
  assert (forallb (fun k => existsb (beqb k) (map fst replaced)) (map fst charref_map) = true) as F by (vm_compute; reflexivity).
  rewrite forallb_forall in F. apply F in E. apply existsb_exists in E as (k & I & B). apply beqb_eq in B. now subst.
Qed.
Definition plain (c : ascii) : Prop := is_cont c = false /\ is_ws [c] = false.
Lemma plain_digit c : is_digit c = true -> plain c.
Proof. destruct c as [[] [] [] [] [] [] [] []]; intros H; try discriminate H; split; reflexivity. Qed.
Lemma plain_chars s : Forall plain s -> chars s = map (fun c => [c]) s.
Proof.
  induction 1 as [|c s P F IH]; [reflexivity|]. cbn [chars map]. rewrite IH. destruct F as [|d s D F]; [reflexivity|].
  cbn [map]. now rewrite (proj1 D).
Qed.
Lemma plain_line s : Forall plain s -> replace_ws_newline s = s.
Proof.
  intros F. unfold replace_ws_newline. rewrite plain_chars by exact F. unfold unchars.
  induction F as [|c s P F IH]; [reflexivity|]. cbn [map collapse_nl]. rewrite (proj2 P). cbn [flush_ws existsb rev app List.concat]. now rewrite IH.
Qed.
Lemma all_digits d : forall a n, digits_val a d = Some n -> Forall (fun c => is_digit c = true) d.
Proof. induction d as [|c d IH]; intros a n H; [constructor|]. cbn in H. destruct (is_digit c) eqn:E; [|discriminate]. constructor; eauto. Qed.
Lemma code_char_length n : List.length (code_char n) <= 4.
Proof. unfold code_char. rewrite map_length. destruct (n <? 128)%N, (n <? 2048)%N, (n <? 65536)%N; cbn; lia. Qed.
Lemma number_text d n : decimal d n -> bs "&#" ++ d ++ bs ";" <> code_char n.
Proof.
  intros D E. apply decimal_val in D as (Z & D). destruct d as [|c [|c' d]]; [congruence| |].
  - cbn [digits_val] in D. destruct (is_digit c) eqn:C; [|discriminate]. injection D as <-.
    destruct c as [[] [] [] [] [] [] [] []]; try discriminate C; vm_compute in E; discriminate E.
  - pose proof (code_char_length n) as L. rewrite <- E in L. rewrite !app_length in L. cbn in L. lia.
Qed.
Lemma charref_exact v n k loc : stands v n ->
  (runs_from_inlines false [ILit LCharref k v loc] = (false, [RText (code_char n) no_props])
   <-> In v (map fst replaced) /\ n <> 160%N /\ n <> 8211%N).
Proof.
  intros S. split; [|intros (I & A & B); now apply charref_char].
  intros H. assert (replace_ws_newline (value_or_refd_char LCharref v) = code_char n) as E.
  { apply (f_equal (fun x => match snd x with RText t _ :: _ => t | _ => [] end)) in H. exact H. }
  destruct (in_dec (list_eq_dec ascii_dec) v (map fst replaced)) as [J|J].
  - split; [exact J|].
    assert (forallb (fun v => let o := replace_ws_newline (value_or_refd_char LCharref v) in
        negb (beqb o (code_char 160)) && negb (beqb o (code_char 8211))) (map fst replaced) = true) as F by (vm_compute; reflexivity).
    rewrite forallb_forall in F. apply F in J. cbv zeta in J. rewrite andb_true_iff, !negb_true_iff in J. destruct J as (J1 & J2).
    split; intros ->; [rewrite E, beqb_refl in J1|rewrite E, beqb_refl in J2]; discriminate.
  - exfalso. rewrite (kept v J) in E. destruct S as [d n D|s n S].
    + rewrite plain_line in E; [now apply (number_text d n D)|]. apply decimal_val in D as (_ & D). apply all_digits in D.
      repeat (constructor; [split; reflexivity|]). apply Forall_app. split; [eapply Forall_impl; [apply plain_digit|exact D]|].
      repeat constructor.
    + assert (forallb (fun e => negb (beqb (replace_ws_newline (fst e)) (code_char (snd e)))) entities = true) as F by (vm_compute; reflexivity).
      rewrite forallb_forall in F. apply F in S. cbn [fst snd] in S. rewrite E, beqb_refl in S. discriminate.
Qed.
