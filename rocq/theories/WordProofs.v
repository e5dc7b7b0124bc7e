(** * Word counts: proofs for C31 *)
From Verif Require Import Base Location Meta Inline Block Asg SpecText SpecDocx SpecWords TreeInd DocGraph TextProofs DocxProofs.
Local Open Scope nat_scope.

Lemma chars_app a b : starts_char b -> chars (a ++ b) = chars a ++ chars b.
Proof.
  intros S. induction a as [|c a IH]; [reflexivity|]. cbn [app chars]. rewrite IH. pose proof (chars_ne a) as N. destruct (chars a) as [|[|d w] ws]; cbn [app].
  - destruct b as [|d b]; [reflexivity|]. destruct (chars_head d b) as (w & ws & ->). cbn in S. now rewrite S.
  - apply Forall_inv in N. congruence.
  - destruct (is_cont d); reflexivity.
Qed.
Lemma words_count l : Forall (fun ch => ch <> []) l -> forall cur,
  List.length (words_aux l cur) = match cur with [] => word_starts true l | _ => S (word_starts false l) end.
Proof.
  induction 1 as [|ch l N F IH]; intros cur; cbn [words_aux word_starts]; [now destruct cur|]. destruct (is_ws ch).
  - destruct cur; cbn [List.length]; now rewrite IH.
  - rewrite IH. destruct ch as [|c ch]; [congruence|]. now destruct cur.
Qed.
Lemma starts_app l2 : forall l1 gap, word_starts gap (l1 ++ l2) = word_starts gap l1 + word_starts (match rev l1 with [] => gap | ch :: _ => is_ws ch end) l2.
Proof.
  induction l1 as [|ch l1 IH]; intros gap; [reflexivity|]. cbn [app word_starts rev].
  assert (forall g, g = is_ws ch -> match rev l1 with [] => g | c :: _ => is_ws c end = match rev l1 ++ [ch] with [] => gap | c :: _ => is_ws c end) as E.
  { intros g ->. destruct (rev l1); reflexivity. }
  destruct (is_ws ch) eqn:W; rewrite IH, (E _ eq_refl); lia.
Qed.
Lemma starts_gap l g : word_starts true l = word_starts g l + (if negb g && (match l with ch :: _ => negb (is_ws ch) | [] => false end) then 1 else 0).
Proof. destruct g; cbn; [lia|]. destruct l as [|ch l]; cbn; [lia|]. destruct (is_ws ch); cbn; lia. Qed.
Lemma words_glued ps : Forall starts_char ps -> forall g,
  word_starts g (chars (List.concat ps)) + glued (negb g) ps = total (map words_in ps).
Proof.
  induction 1 as [|s ps S F IH]; intros g; [reflexivity|]. cbn [List.concat glued map total fold_right]. fold (total (map words_in ps)).
  assert (starts_char (List.concat ps)) as SC.
  { clear -F. induction F as [|x l X F IH]; [exact I|]. cbn. destruct x; [exact IH|exact X]. }
  rewrite chars_app by exact SC. rewrite starts_app. unfold words_in at 1. rewrite (starts_gap (chars s) g). change (match chars s with ch :: _ => negb (is_ws ch) | [] => false end) with (ink_first s).
  set (g' := match rev (chars s) with [] => g | ch :: _ => is_ws ch end).
  assert (match s with [] => negb g | _ :: _ => ink_last s end = negb g') as E.
  { unfold g', ink_last. destruct s as [|c s]; [reflexivity|]. destruct (rev (chars (c :: s))) as [|ch r] eqn:R; [|reflexivity].
    exfalso. destruct (chars_head c s) as (w & ws & K). rewrite K in R. cbn in R. now destruct (rev ws). }
  rewrite E. specialize (IH g'). lia.
Qed.
Lemma plains_text l : inlines_text l = plains l.
Proof. reflexivity. Qed.
Lemma own_counted h : own_text h = List.concat (counted_of_head h).
Proof. destruct h; cbn; rewrite ?app_nil_r; try reflexivity; apply plains_text. Qed.
Lemma text_counted b : block_text b = List.concat (counted b).
Proof.
  induction b as [h m k loc IH] using block_ind'. cbn. rewrite concat_app, own_counted. f_equal. induction k as [|x k IHk]; [reflexivity|].
  apply Forall_cons_iff in IH as [I1 I2]. cbn. now rewrite I1, concat_app, IHk.
Qed.
Lemma all_counted a : all_text a = List.concat (List.concat (map counted (a_blocks a))).
Proof.
  unfold all_text. induction (a_blocks a) as [|x l IH]; [reflexivity|]. cbn. now rewrite concat_app, text_counted, IH.
Qed.
Lemma count_exact a : Forall starts_char (List.concat (map counted (a_blocks a))) ->
  word_count a + glued false (List.concat (map counted (a_blocks a))) = total (map words_in (List.concat (map counted (a_blocks a)))).
Proof.
  intros F. unfold word_count, split_whitespace. rewrite words_count by apply chars_ne. rewrite all_counted. exact (words_glued _ F true).
Qed.
Lemma separated_glued l : separated l -> glued false l = 0.
Proof.
  induction l as [|s l IH]; [reflexivity|]. intros H. cbn [glued andb]. destruct l as [|t l]; [reflexivity|]. destruct H as [H1 H2].
  replace (match s with [] => false | _ :: _ => ink_last s end) with false; [now apply IH|]. destruct s; [reflexivity|now rewrite H1].
Qed.
(** ** Blocks without dropped text *)
Definition some_text (s : bytes) : bool := match s with [] => false | _ => true end.
Lemma glued_filter l : forall g, glued g (filter some_text l) = glued g l.
Proof. induction l as [|s l IH]; intros g; [reflexivity|]. destruct s as [|c s]; cbn [filter some_text glued]; rewrite IH; [|reflexivity]. now destruct g. Qed.
Lemma total_filter l : total (map words_in (filter some_text l)) = total (map words_in l).
Proof. induction l as [|s l IH]; [reflexivity|]. destruct s as [|c s]; cbn [filter some_text map total fold_right]; [exact IH|]. f_equal. exact IH. Qed.
Lemma starts_filter l : Forall starts_char (filter some_text l) -> Forall starts_char l.
Proof.
  induction l as [|s l IH]; intros F; [constructor|]. destruct s as [|c s]; cbn in F; [constructor; [exact I|now apply IH]|]. apply Forall_cons_iff in F as [F1 F2]. constructor; auto.
Qed.
Lemma filter_starts l : Forall starts_char l -> Forall starts_char (filter some_text l).
Proof. intros F. apply Forall_forall. intros x X. apply filter_In in X as [X _]. rewrite Forall_forall in F. auto. Qed.
Lemma filter_concat {A} (p : A -> bool) l : filter p (List.concat l) = List.concat (map (filter p) l).
Proof. induction l as [|x l IH]; [reflexivity|]. cbn. now rewrite filter_app, IH. Qed.
Lemma kept b : no_dropped b -> filter some_text (texts b) = filter some_text (counted b).
Proof.
  induction b as [h m k loc IH] using block_ind'. intros N. inversion N as [? ? ? ? Hh Hk]. subst. cbn. rewrite !filter_app, !filter_concat. f_equal.
  - destruct h; cbn in *; try reflexivity; rewrite Hh; reflexivity.
  - f_equal. rewrite !map_map. clear N Hh. induction k as [|x k IHk]; [reflexivity|]. apply Forall_cons_iff in IH as [I1 I2]. apply Forall_cons_iff in Hk as [K1 K2].
    cbn. rewrite (I1 K1). f_equal. now apply IHk.
Qed.
Lemma kept_all l : Forall no_dropped l -> filter some_text (List.concat (map texts l)) = filter some_text (List.concat (map counted l)).
Proof. induction 1 as [|x l X F IH]; [reflexivity|]. cbn. rewrite !filter_app, IH. now rewrite kept. Qed.
Lemma count_separated a : Forall no_dropped (a_blocks a) -> Forall starts_char (List.concat (map texts (a_blocks a))) ->
  separated (List.concat (map texts (a_blocks a))) -> word_count a = total (map words_in (List.concat (map texts (a_blocks a)))).
Proof.
  intros N F S. pose proof (kept_all _ N) as K. rewrite <- total_filter, K, total_filter. rewrite <- count_exact.
  - rewrite <- glued_filter, <- K, glued_filter. rewrite separated_glued by exact S. lia.
  - apply starts_filter. rewrite <- K. now apply filter_starts.
Qed.
