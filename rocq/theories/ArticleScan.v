(** * Articles: the tokens of their lines *)
From Verif Require Import Base World Location Token Scanner Meta Inline Block Asg Parser SpecScan SpecStart SpecLoc
  SpecDoc SpecArticle ScanLemmas ScanFacts ScanMain ScanMain2 ScanLine ScanStart ScanDoc LocProofs DocProofs.
Local Open Scope char_scope.
Local Open Scope nat_scope.

(** ** Rich lines *)
Definition mark_type (k : mark) : token_type :=
  match k with
  | Strong => TStrong | Emphasis => TEmphasis | Code => TMonospace | Highlight => TMark
  | Superscript => TSuperscript | Subscript => TSubscript
  end.
Section Tokens.
  Variable files : list bytes.
  Definition mark_tok (n col : nat) (k : mark) : token := tok (mark_type k) false files n col [mark_char k].
  Definition chunk_toks (n col : nat) (c : chunk) (ts : list token) : Prop :=
    exists t1 t2, ts = t1 ++ t2 /\ texts files n col t1 (fst c) /\ refs files n (col + List.length (fst c)) (snd c) t2.
  Inductive marks_toks (n : nat) : nat -> list (mark * chunk * chunk) -> list token -> Prop :=
  | mt_nil col : marks_toks n col [] []
  | mt_cons col k i a l t1 t2 ts :
      chunk_toks n (col + 1) i t1 ->
      chunk_toks n (col + 1 + List.length (spell_chunk i) + 1) a t2 ->
      marks_toks n (col + 1 + List.length (spell_chunk i) + 1 + List.length (spell_chunk a)) l ts ->
      marks_toks n col ((k, i, a) :: l)
        (mark_tok n col k :: t1 ++ mark_tok n (col + 1 + List.length (spell_chunk i)) k :: t2 ++ ts).
  Definition rich_toks (n col : nat) (r : rich) (ts : list token) : Prop :=
    exists t1 t2, ts = t1 ++ t2 /\ chunk_toks n col (fst r) t1
      /\ marks_toks n (col + List.length (spell_chunk (fst r))) (snd r) t2.
End Tokens.

Lemma last_of_split s c : last_of s = Some c -> exists b, s = b ++ [c].
Proof.
  destruct s as [|x s]; [discriminate|]. unfold last_of. intros H.
  exists (removelast (x :: s)). transitivity (removelast (x :: s) ++ [last (x :: s) NUL]).
  - apply app_removelast_last. discriminate.
  - now injection H as <-.
Qed.
Lemma last_of_nil s : last_of s = None -> s = [].
Proof. destruct s; [reflexivity|discriminate]. Qed.

Definition preceded (before : bytes) (prev : option ascii) : Prop :=
  match prev with
  | Some c => exists b, before = b ++ [c]
  | None => at_line_start before \/ exists b, before = b ++ [SP]
  end.
Lemma preceded_app before s : s <> [] -> preceded (before ++ s) (last_of s).
Proof.
  intros H. destruct (last_of s) as [c|] eqn:E; [|now apply last_of_nil in E]. cbn.
  apply last_of_split in E as (b & ->). exists (before ++ b). now rewrite app_assoc.
Qed.

Section Scan.
  Variables (src : bytes) (files : list bytes).

  Lemma chunk_run c before n col sc tail :
    at_place src files before n col sc -> src = before ++ spell_chunk c ++ tail ->
    plain_chunk c -> closing (spell_chunk c) tail -> (at_line_start before -> plain_start (fst c)) ->
    exists ts sc', runs sc ts sc' /\ chunk_toks files n col c ts
      /\ at_place src files (before ++ spell_chunk c) n (col + List.length (spell_chunk c)) sc'
      /\ List.length ts <= List.length (spell_chunk c).
  Proof.
    destruct c as [s l]. unfold spell_chunk. cbn [fst snd spell]. intros A E [[U M] F] Hc Hs.
    set (rest := List.concat (map (fun x : bytes * bytes => "{" :: fst x ++ "}" :: snd x) l)) in *.
    destruct (text_run src files (List.length s) before n col sc s (rest ++ tail)) as (ts & sc1 & R1 & A1 & T1); auto.
    { rewrite E. now rewrite <- app_assoc. }
    { now apply utf8_head in U. }
    { now apply refs_closing. }
    destruct (refs_run src files l (before ++ s) n (col + List.length s) sc1 tail A1) as (ts' & sc2 & R2 & T2 & A2 & L2); auto.
    { now apply closing_suffix in Hc. }
    { fold rest. rewrite E, <- !app_assoc. reflexivity. }
    fold rest in A2, L2.
    exists (ts ++ ts'), sc2. split; [eapply runs_app; eassumption|]. split; [|split].
    - exists ts, ts'. auto.
    - rewrite app_assoc, app_length, Nat.add_assoc. exact A2.
    - apply texts_len in T1. rewrite !app_length. lia.
  Qed.

  Section Mark.
    Variables (before : bytes) (n col : nat) (k : mark) (p : ascii) (r : bytes).
    Hypothesis Es : src = before ++ mark_char k :: p :: r.
    Let sc := bump (here src files before n col) 1.
    Lemma mark_rest : skipn (sc_cur sc) (sc_src sc) = p :: r.
    Proof.
      unfold sc, here. cbn [bump set_cur sc_cur sc_src]. rewrite Es, <- skipn_skipn', skipn_length_app. reflexivity.
    Qed.
    Lemma back_of b c : before = b ++ [c] -> is_cont c = false -> peek_back sc = c.
    Proof.
      intros -> H. unfold sc, peek_back, here. cbn [bump set_cur sc_start sc_src]. rewrite app_length, Nat.add_1_r.
      unfold peek_at. rewrite Es, <- app_assoc, nth_error_app2, Nat.sub_diag by lia. cbn. unfold peek_byte. now rewrite H.
    Qed.
    Lemma not_line_start b c : before = b ++ [c] -> c <> NL -> starts_new_line sc = false.
    Proof.
      intros -> H. unfold sc, starts_new_line, here. cbn [bump set_cur sc_start sc_src]. rewrite app_length, Nat.add_1_r.
      rewrite Es, <- app_assoc, nth_error_app2, Nat.sub_diag by lia. cbn. now apply Ascii.eqb_neq.
    Qed.

    Definition ordinary (c : ascii) : Prop :=
      is_cont c = false /\ c <> NUL /\ ~ In c ["*"; "_"; "`"; "#"; "'"; DQ].
    Hypothesis Hp : ordinary p.
    Lemma mark_peek : peek sc = p.
    Proof. eapply peek_at_head; [exact mark_rest|apply Hp]. Qed.
    Lemma not_ahead_head q x : peeks_ahead sc (List.length (q :: x)) = q :: x -> q :: x <> [NUL] -> q = p.
    Proof. intros H N. apply peeks_ahead_prefix in H as (y & H); [|assumption]. rewrite mark_rest in H. now injection H as -> _. Qed.
    Lemma not_closes_word q : In q ["'"; DQ] -> closes_word sc q = false.
    Proof.
      intros H. assert (q <> p) as N. { intros ->. apply Hp. cbn in *. tauto. }
      unfold closes_word. rewrite mark_peek.
      replace (p == q) with false by (symmetry; apply Ascii.eqb_neq; congruence). rewrite andb_false_r, orb_false_r.
      apply not_true_is_false. intros M. apply memb_In in M. destruct M as [M|[M|[]]]; symmetry in M; apply N.
      - now apply (not_ahead_head q [SP]).
      - now apply (not_ahead_head q [NL]).
    Qed.
    Lemma not_fence m : constrained k -> starts_repeated_char_line sc (mark_char k) (S (S m)) = false.
    Proof.
      intros C. apply not_true_is_false. intros H. apply repeated_line in H; [|discriminate|now destruct k].
      rewrite mark_rest in H. cbn in H. injection H as -> _.
      destruct Hp as (_ & _ & N). destruct k; try contradiction; apply N; cbn; tauto.
    Qed.

    Lemma handled ty un : constrained k ->
      (p <> SP /\ memc (peek_back sc) beginning_of_inline_markers = true)
      \/ (memc p end_of_inline_markers = true /\ peek_back sc <> SP) ->
      handle_inline_formatting sc (mark_char k) ty un = add_token sc ty false 0.
    Proof.
      intros C H. unfold handle_inline_formatting. rewrite mark_peek.
      assert (p == mark_char k = false) as ->.
      { apply Ascii.eqb_neq. destruct Hp as (_ & _ & N). intros ->. destruct k; try contradiction; apply N; cbn; tauto. }
      destruct H as [[H1 H2]|[H1 H2]].
      - apply Ascii.eqb_neq in H1. rewrite H1, H2. cbn [andb negb]. rewrite orb_true_r. reflexivity.
      - apply Ascii.eqb_neq in H2. rewrite H1, H2, andb_false_r. reflexivity.
    Qed.

    Lemma mark_branch :
      (constrained k -> p <> SP /\ memc (peek_back sc) beginning_of_inline_markers = true
         \/ memc p end_of_inline_markers = true /\ peek_back sc <> SP /\ starts_new_line sc = false) ->
      scan_token (here src files before n col) = add_token sc (mark_type k) false 0.
    Proof.
      intros H. unfold scan_token, byte_at, here. cbn [sc_src sc_cur].
      rewrite Es at 1. rewrite nth_error_app2, Nat.sub_diag by lia. cbn [nth_error bind].
      fold (here src files before n col). fold sc.
      assert (starts_end_tag_line sc = false) as Htag by reflexivity.
      pose proof (not_fence 2) as F. pose proof handled as G. pose proof not_closes_word as W. pose proof mark_peek as P.
      assert (constrained k -> (p <> SP /\ memc (peek_back sc) beginning_of_inline_markers = true)
                \/ (memc p end_of_inline_markers = true /\ peek_back sc <> SP)) as H'.
      { intros C. destruct (H C) as [K|K]; [left|right]; tauto. }
      clear Hp Es. clearbody sc. destruct k; cbn [mark_char mark_type constrained] in *; cbn [Ascii.eqb Bool.eqb memc orb existsb].
      - unfold scan_delim. rewrite Htag, F by exact I. rewrite andb_false_r.
        unfold scan_delim_inner. cbn [Ascii.eqb Bool.eqb]. rewrite P.
        assert (starts_new_line sc && (p == SP) = false) as ->.
        { destruct (H I) as [[N _]|(_ & _ & ->)]; [|reflexivity]. apply Ascii.eqb_neq in N. now rewrite N, andb_false_r. }
        apply G; [exact I|]. now apply H'.
      - unfold scan_delim. rewrite Htag, F by exact I. rewrite andb_false_r.
        unfold scan_delim_inner. cbn [Ascii.eqb Bool.eqb]. apply G; [exact I|]. now apply H'.
      - unfold scan_backquote. rewrite !W by (cbn; tauto). apply G; [exact I|]. now apply H'.
      - rewrite Htag. apply G; [exact I|]. now apply H'.
      - reflexivity.
      - reflexivity.
    Qed.
  End Mark.

  Lemma mark_next before n col k p r sc :
    at_place src files before n col sc -> src = before ++ mark_char k :: p :: r -> is_cont p = false ->
    (constrained k -> ordinary p
       /\ (p <> SP /\ memc (peek_back (bump (here src files before n col) 1)) beginning_of_inline_markers = true
           \/ memc p end_of_inline_markers = true /\ peek_back (bump (here src files before n col) 1) <> SP
              /\ starts_new_line (bump (here src files before n col) 1) = false)) ->
    exists sc', next sc = Ok (Some (mark_tok files n col k), sc')
      /\ at_place src files (before ++ [mark_char k]) n (col + 1) sc'.
  Proof.
    intros A E Hp H.
    destruct (add_token_next src files before n col sc (List.length before + 1) (mark_type k) false 0 [mark_char k] (p :: r) A E)
      as (sc' & N & A'); auto.
    - discriminate.
    - right. exists (mark_char k), []. split; [reflexivity|]. now destruct k.
    - right. eauto.
    - assert (constrained k \/ k = Superscript \/ k = Subscript) as [C|K] by (destruct k; cbn; tauto).
      + destruct (H C) as [O H']. rewrite (mark_branch before n col k p r E O) by auto. reflexivity.
      + unfold scan_token, byte_at, here. cbn [sc_src sc_cur].
        rewrite E at 1. rewrite nth_error_app2, Nat.sub_diag by lia.
        destruct K as [-> | ->]; reflexivity.
    - exists sc'. cbn in A'. rewrite Nat.add_0_r in A'. split; [exact N|exact A'].
  Qed.

  Lemma preceded_back before prev n col c r :
    src = before ++ c :: r -> preceded before prev -> opens_after prev ->
    memc (peek_back (bump (here src files before n col) 1)) beginning_of_inline_markers = true.
  Proof.
    intros E H O. unfold peek_back, here. cbn [bump set_cur sc_start sc_src].
    assert (before = [] \/ exists b d, before = b ++ [d] /\ In d [SP; "("; NL]) as [->|(b & d & -> & D)].
    { destruct prev as [d|]; cbn in H, O.
      - destruct H as (b & ->). right. exists b, d. split; [reflexivity|]. cbn in *. tauto.
      - destruct H as [[->|(b & ->)]|(b & ->)]; [now left|right; exists b, NL|right; exists b, SP]; split; cbn; auto. }
    - reflexivity.
    - rewrite app_length, Nat.add_1_r. unfold peek_at. rewrite E, <- app_assoc, nth_error_app2, Nat.sub_diag by lia. cbn [app nth_error].
      destruct D as [<-|[<-|[<-|[]]]]; reflexivity.
  Qed.

  Lemma plain_head c tail : plain_chunk c -> boundary_head tail -> boundary_head (spell_chunk c ++ tail).
  Proof.
    destruct c as [[|x s] l]; unfold spell_chunk; cbn [fst snd spell app]; intros [[U _] F] H.
    - destruct l as [|y l]; [exact H|]. right. eexists _, _. split; reflexivity.
    - apply utf8_head in U as [U|(y & r & E & Hy)]; [discriminate|]. injection E as -> _. right. eexists _, _. split; [reflexivity|exact Hy].
  Qed.

  Lemma word_ordinary c : word_char c -> ordinary c /\ c <> SP /\ c <> NL /\ c <> DQ.
  Proof.
    unfold word_char, ordinary, is_ascii_alnum. intros H. destruct c as [[] [] [] [] [] [] [] []]; vm_compute in H; try discriminate;
      (split; [split; [reflexivity|split; [discriminate|cbn; intuition discriminate]]|repeat split; discriminate]).
  Qed.

  Definition mark_tail (l : list (mark * chunk * chunk)) (tail : bytes) : bytes := List.concat (map spell_marked l) ++ NL :: tail.
  Lemma mark_tail_head l tail : boundary_head (mark_tail l tail).
  Proof.
    destruct l as [|[[k i] a] l]; [right; eexists _, _; split; reflexivity|].
    right. unfold mark_tail. cbn. eexists _, _. split; [reflexivity|]. now destruct k.
  Qed.
  Lemma mark_tail_closing s l tail : marks_fit (last_of s) l -> closing s (mark_tail l tail).
  Proof.
    intros H. right. destruct l as [|[[k i] a] l].
    - eexists _, _. split; [reflexivity|]. split; [now left|discriminate].
    - unfold mark_tail. cbn. eexists _, _. split; [reflexivity|]. split; [destruct k; cbn; tauto|].
      intros K. destruct k; try discriminate. cbn in H. destruct H as (_ & _ & _ & H & _). destruct (H I) as [O _].
      destruct s as [|c s]; [discriminate|]. cbn [last_of opens_after] in O. change "000" with NUL in O. intros D. rewrite D in O.
      cbn in O. intuition discriminate.
  Qed.

  Lemma marks_run l : forall before prev n col sc tail,
    at_place src files before n col sc -> src = before ++ mark_tail l tail -> preceded before prev ->
    marks_fit prev l ->
    exists ts sc', runs sc ts sc' /\ marks_toks files n col l ts
      /\ at_place src files (before ++ List.concat (map spell_marked l)) n (col + List.length (List.concat (map spell_marked l))) sc'
      /\ List.length ts <= List.length (List.concat (map spell_marked l)).
  Proof.
    induction l as [|[[k i] a] l IH]; intros before prev n col sc tail A E Hb Hf.
    { exists [], sc. cbn. rewrite app_nil_r, Nat.add_0_r. repeat split; try apply A; constructor. }
    cbn [marks_fit] in Hf. destruct Hf as (Pi & Ni & Pa & Hc & Hr & Hf).
    set (S1 := spell_chunk i) in *. set (S2 := spell_chunk a) in *.
    assert (src = before ++ mark_char k :: S1 ++ mark_char k :: S2 ++ mark_tail l tail) as E1.
    { rewrite E. unfold mark_tail. cbn [map List.concat spell_marked]. fold S1 S2. cbn. rewrite <- !app_assoc. cbn. now rewrite <- !app_assoc. }
    (* the opening mark *)
    assert (boundary_head (S1 ++ mark_char k :: S2 ++ mark_tail l tail)) as B1.
    { apply plain_head; [assumption|]. right. eexists _, _. split; [reflexivity|]. now destruct k. }
    destruct (S1 ++ mark_char k :: S2 ++ mark_tail l tail) as [|p r] eqn:E2; [now destruct S1|].
    destruct B1 as [|(? & ? & [= <- <-] & Cp)]; [discriminate|].
    destruct (mark_next before n col k p r sc A) as (sc1 & N1 & A1); [exact E1|exact Cp|..].
    { intros C. destruct (Hc C) as (O & ((c & s & Es & Hw) & _) & _). rewrite Es in E2. injection E2 as <- _.
      assert (ordinary c /\ c <> SP) as [Oc Sc].
      { destruct Hw as [Hw| ->]; [apply word_ordinary in Hw; tauto|].
        split; [split; [reflexivity|split; [discriminate|cbn; intuition discriminate]]|discriminate]. }
      split; [exact Oc|]. left. split; [exact Sc|]. eapply preceded_back; eassumption. }
    (* what is inside *)
    assert (E3 : src = (before ++ [mark_char k]) ++ S1 ++ mark_char k :: S2 ++ mark_tail l tail).
    { rewrite E2, <- app_assoc. exact E1. }
    destruct (chunk_run i (before ++ [mark_char k]) n (col + 1) sc1 (mark_char k :: S2 ++ mark_tail l tail) A1 E3 Pi)
      as (ts1 & sc2 & R2 & T2 & A2 & L2).
    { right. eexists _, _. split; [reflexivity|]. split; [destruct k; cbn; tauto|].
      intros K. destruct k; try discriminate. destruct (Hc I) as (_ & (_ & (c & s & Es & Hw)) & _). fold S1. rewrite Es.
      rewrite last_last. destruct Hw as [Hw| ->]; [apply word_ordinary in Hw; tauto|discriminate]. }
    { intros [K|(b & K)]; [now destruct before|]. apply app_inj_tail in K as [_ K]. now destruct k. }
    fold S1 in A2, L2.
    (* the closing mark *)
    assert (E4 : src = ((before ++ [mark_char k]) ++ S1) ++ mark_char k :: S2 ++ mark_tail l tail).
    { rewrite E3. now rewrite <- !app_assoc. }
    assert (boundary_head (S2 ++ mark_tail l tail)) as B2 by (apply plain_head; [assumption|apply mark_tail_head]).
    destruct (S2 ++ mark_tail l tail) as [|q r'] eqn:E5; [exfalso; apply app_eq_nil in E5 as [_ E5]; destruct l as [|[[? ?] ?] ?]; discriminate|].
    destruct B2 as [|(? & ? & [= <- <-] & Cq)]; [discriminate|].
    destruct (mark_next ((before ++ [mark_char k]) ++ S1) n (col + 1 + List.length S1) k q r' sc2 A2 E4 Cq) as (sc3 & N3 & A3).
    { intros C. destruct (Hc C) as (_ & (_ & (c & s & Es & Hw)) & Cl).
      assert (In q [NL; " "; "."; ","; ";"; ":"; ")"; "!"; "?"]) as Q.
      { fold S2 in Cl. destruct S2 as [|d s2] eqn:K.
        - destruct l as [|x l]; [|now specialize (Hr ltac:(discriminate))]. cbn in E5. injection E5 as <- _. now left.
        - injection E5 as <- _. right. exact Cl. }
      assert (is_cont c = false /\ c <> SP /\ c <> NL) as (C1 & C2 & C3).
      { destruct Hw as [Hw| ->]; [|repeat split; discriminate]. apply word_ordinary in Hw. unfold ordinary in Hw. tauto. }
      split.
      - repeat destruct Q as [<-|Q]; try (split; [reflexivity|split; [discriminate|cbn; intuition discriminate]]). contradiction.
      - right. split; [repeat destruct Q as [<-|Q]; try reflexivity; contradiction|].
        pose proof E4 as E4'. rewrite Es, app_assoc in E4'. split.
        + rewrite Es. rewrite app_assoc. erewrite back_of; [exact C2|exact E4'|reflexivity|exact C1].
        + rewrite Es. rewrite app_assoc. eapply not_line_start; [exact E4'|reflexivity|exact C3]. }
    (* the text behind it *)
    assert (E6 : src = (((before ++ [mark_char k]) ++ S1) ++ [mark_char k]) ++ S2 ++ mark_tail l tail).
    { rewrite E5, E4. now rewrite <- !app_assoc. }
    destruct (chunk_run a _ n _ sc3 (mark_tail l tail) A3 E6 Pa) as (ts2 & sc4 & R4 & T4 & A4 & L4).
    { now apply mark_tail_closing. }
    { intros [K|(b & K)]; [now destruct ((before ++ [mark_char k]) ++ S1)|]. apply app_inj_tail in K as [_ K]. now destruct k. }
    fold S2 in A4, L4.
    (* the rest *)
    assert (exists ts3 sc5, runs sc4 ts3 sc5 /\ marks_toks files n (col + 1 + List.length S1 + 1 + List.length S2) l ts3
      /\ at_place src files (((((before ++ [mark_char k]) ++ S1) ++ [mark_char k]) ++ S2) ++ List.concat (map spell_marked l)) n
                  (col + 1 + List.length S1 + 1 + List.length S2 + List.length (List.concat (map spell_marked l))) sc5
      /\ List.length ts3 <= List.length (List.concat (map spell_marked l))) as (ts3 & sc5 & R5 & T5 & A5 & L5).
    { destruct l as [|x l].
      - exists [], sc4. cbn. rewrite app_nil_r, Nat.add_0_r. repeat split; try apply A4; constructor.
      - eapply (IH _ (last_of S2)); [exact A4| |apply preceded_app, Hr; discriminate|exact Hf].
        rewrite E6 at 1. now rewrite <- !app_assoc. }
    exists (mark_tok files n col k :: ts1 ++ mark_tok files n (col + 1 + List.length S1) k :: ts2 ++ ts3), sc5.
    split; [|split; [|split]].
    - econstructor; [exact N1|]. eapply runs_app; [exact R2|]. econstructor; [exact N3|]. eapply runs_app; eassumption.
    - constructor; assumption.
    - replace (before ++ List.concat (map spell_marked ((k, i, a) :: l)))
        with (((((before ++ [mark_char k]) ++ S1) ++ [mark_char k]) ++ S2) ++ List.concat (map spell_marked l)).
      + replace (col + List.length (List.concat (map spell_marked ((k, i, a) :: l))))
          with (col + 1 + List.length S1 + 1 + List.length S2 + List.length (List.concat (map spell_marked l))); [exact A5|].
        cbn [map List.concat spell_marked]. fold S1 S2. cbn [List.length app]. rewrite !app_length. cbn [List.length]. rewrite ?app_length. lia.
      + cbn [map List.concat spell_marked]. fold S1 S2. cbn [app]. rewrite <- !app_assoc. cbn [app]. now rewrite <- ?app_assoc.
    - cbn [map List.concat spell_marked]. fold S1 S2. cbn [List.length app]. rewrite !app_length. cbn [List.length].
      rewrite ?app_length. cbn [List.length]. lia.
  Qed.

  Lemma rich_run r before n col sc tail :
    at_place src files before n col sc -> src = before ++ spell_rich r ++ NL :: tail -> rich_line r ->
    at_line_start before \/ (exists b, before = b ++ [SP]) ->
    exists ts sc', runs sc ts sc' /\ rich_toks files n col r ts
      /\ at_place src files (before ++ spell_rich r) n (col + List.length (spell_rich r)) sc'
      /\ List.length ts <= List.length (spell_rich r).
  Proof.
    destruct r as [c l]. unfold rich_line, spell_rich. cbn [fst snd]. intros A E (Ne & Pc & Hs & Hf) Hb.
    destruct (chunk_run c before n col sc (mark_tail l tail) A) as (ts1 & sc1 & R1 & T1 & A1 & L1); [|exact Pc|now apply mark_tail_closing|auto|].
    { rewrite E. unfold mark_tail. now rewrite <- app_assoc. }
    destruct (marks_run l (before ++ spell_chunk c) (last_of (spell_chunk c)) n _ sc1 tail A1) as (ts2 & sc2 & R2 & T2 & A2 & L2).
    { rewrite E. unfold mark_tail. now rewrite <- !app_assoc. }
    { destruct (spell_chunk c) eqn:K; [|apply preceded_app; discriminate]. rewrite app_nil_r. exact Hb. }
    { exact Hf. }
    exists (ts1 ++ ts2), sc2. split; [eapply runs_app; eassumption|]. split; [now exists ts1, ts2|].
    rewrite app_assoc, app_length, Nat.add_assoc. split; [exact A2|]. rewrite app_length. lia.
  Qed.
End Scan.

(** ** What a line may begin with, or consist of *)
Inductive lead :=
| LHeading (n : nat) | LItem (ordered : bool) | LLabel (v : parent_variant)
| LVerbatim (v : verbatim) | LBox (b : box) | LComments | LBreak (v : break_variant)
| LComment (s : bytes) | LEntry (name value : bytes).
Definition heading_token (n : nat) : token_type :=
  match n with 0 => THeading1 | 1 => THeading2 | 2 => THeading3 | 3 => THeading4 | _ => THeading5 end.
Definition label_token (v : parent_variant) : token_type :=
  match v with VNote => TNotePara | VTip => TTipPara | VImportant => TImportantPara | VCaution => TCautionPara | VWarning => TWarningPara end.
Definition verbatim_token (v : verbatim) : token_type :=
  match v with Listing => TSourceBlock | Literal => TLiteralBlock | Pass => TPassthroughBlock end.
Definition box_token (b : box) : token_type :=
  match b with Example => TExampleBlock | Sidebar => TSidebarBlock | Open => TOpenBlock | Quote => TQuoteVerseBlock end.
Definition lead_type (l : lead) : token_type :=
  match l with
  | LHeading n => heading_token n
  | LItem o => if o then TOrderedListItem else TUnorderedListItem
  | LLabel v => label_token v
  | LVerbatim v => verbatim_token v
  | LBox b => box_token b
  | LComments => TCommentBlock
  | LBreak v => match v with BThematic => TThematicBreak | BPage => TPageBreak end
  | LComment _ => TComment
  | LEntry _ _ => TAttribute
  end.
Definition lead_lit (l : lead) : bool := match l with LLabel _ | LComment _ => true | _ => false end.
Definition lead_text (l : lead) : bytes :=
  match l with
  | LHeading n => repeat "=" (S n) ++ [SP]
  | LItem o => item_mark o
  | LLabel v => label v
  | LVerbatim v => fence v
  | LBox b => box_fence b
  | LComments => bs "////"
  | LBreak v => match v with BThematic => bs "'''" | BPage => bs "<<<" end
  | LComment s => bs "//" ++ s
  | LEntry name value => spell (Entry name value)
  end.
Definition lead_alone (l : lead) : Prop := match l with LHeading _ | LItem _ | LLabel _ => False | _ => True end.
Definition lead_ok (l : lead) : Prop :=
  match l with
  | LHeading n => n <= 4
  | LComment s => leaf_ok (CommentLine s)
  | LEntry name value => simple_line (Entry name value)
  | _ => True
  end.
Definition lead_tok (files : list bytes) (n : nat) (l : lead) : token := tok (lead_type l) (lead_lit l) files n 1 (lead_text l).

Section Leads.
  Variables (src : bytes) (files : list bytes).
  Section One.
    Variables (before : bytes) (n : nat) (c : ascii) (s rest : bytes).
    Hypothesis Es : src = before ++ (c :: s) ++ rest.
    Hypothesis Hb : at_line_start before.
    Let sc0 := here src files before n 1.
    Let sc := bump sc0 1.
    Lemma lead_rest : skipn (sc_cur sc) (sc_src sc) = s ++ rest.
    Proof. unfold sc, sc0, here. cbn [bump set_cur sc_cur sc_src]. rewrite Es, <- skipn_skipn', skipn_length_app. reflexivity. Qed.
    Lemma lead_start : starts_new_line sc = true.
    Proof. eapply at_line_start_sc; [|reflexivity|exact Hb]. exact Es. Qed.
    Lemma lead_byte : byte_at sc0 = Ok c.
    Proof. unfold byte_at, sc0, here. cbn [sc_src sc_cur]. rewrite Es at 1. now rewrite nth_error_app2, Nat.sub_diag by lia. Qed.
    Lemma lead_peek d r : s ++ rest = d :: r -> is_cont d = false -> peek sc = d.
    Proof. intros E H. eapply peek_at_head; [|exact H]. rewrite lead_rest. exact E. Qed.
    Lemma lead_ahead k x r : s ++ rest = x ++ r -> List.length x = k -> x <> [] -> boundary_head r -> peeks_ahead sc k = x.
    Proof. intros E K N B. eapply peeks_ahead_at; [rewrite lead_rest; exact E|exact K|exact N|exact B]. Qed.
    Lemma lead_repeated k r : s ++ rest = repeat c (S k) ++ NL :: r -> boundary_head r -> starts_repeated_char_line sc c (S (S k)) = true.
    Proof.
      intros E B. unfold starts_repeated_char_line. rewrite (lead_ahead (S (S k)) (repeat c (S k) ++ [NL]) r).
      - cbn [Nat.sub]. rewrite beqb_refl, andb_true_r. apply Nat.leb_le.
        assert (List.length (skipn (sc_cur sc) (sc_src sc)) = S (S k) + List.length r) as L.
        { rewrite lead_rest, E, app_length, repeat_length. cbn. lia. }
        rewrite skipn_length in L. lia.
      - rewrite E, <- app_assoc. reflexivity.
      - rewrite app_length, repeat_length. cbn. lia.
      - discriminate.
      - exact B.
    Qed.
    Lemma lead_not_repeated k : c <> NUL -> firstn (S (S k)) (s ++ rest) <> repeat c (S k) ++ [NL] ->
      starts_repeated_char_line sc c (S (S k)) = false.
    Proof.
      intros Hc N. apply not_true_is_false. intros H. apply repeated_line in H; [|discriminate|assumption].
      rewrite lead_rest in H. contradiction.
    Qed.
    Lemma bump_here k : bump sc k = set_cur sc0 (List.length before + S k).
    Proof. unfold sc, bump. rewrite set_cur_set_cur. cbn [set_cur sc_cur]. f_equal. unfold sc0, here. cbn [sc_cur]. lia. Qed.
  End One.

  Lemma lead_branch before n l rest : src = before ++ lead_text l ++ rest -> at_line_start before -> lead_ok l ->
    boundary_head rest -> (lead_alone l -> exists tail, rest = NL :: tail /\ boundary_head tail) ->
    lead_type l <> TAttribute ->
    scan_token (here src files before n 1)
    = add_token (set_cur (here src files before n 1) (List.length before + List.length (lead_text l))) (lead_type l) (lead_lit l) 0.
  Proof.
    intros Es Hb Hok Hr Ha Hent.
    assert (forall sc, sc_tagend sc = false -> starts_end_tag_line sc = false) as Htag.
    { intros sc H. unfold starts_end_tag_line. now rewrite H. }
    destruct l as [k|o|v|v|b| |v|s|name value]; cbn [lead_alone] in Ha.
    - (* heading *)
      cbn [lead_ok] in Hok. cbn [lead_text repeat app] in Es |- *. unfold scan_token.
      set (x := repeat "=" k ++ [SP]) in *.
      rewrite (lead_byte before n "=" x rest Es). cbn [bind].
      change (scan_delim (bump (here src files before n 1) 1) "="
              = add_token (set_cur (here src files before n 1) (List.length before + List.length ("=" :: x)))
                  (heading_token k) false 0).
      unfold scan_delim. rewrite Htag by reflexivity.
      assert (x ++ rest = repeat "=" k ++ SP :: rest) as Ex by (unfold x; now rewrite <- app_assoc).
      rewrite (lead_not_repeated before n "=" x rest Es 2);
        [|discriminate|rewrite Ex; destruct k as [|[|[|[|k]]]]; discriminate].
      rewrite andb_false_r. unfold scan_delim_inner. cbn [Ascii.eqb Bool.eqb].
      assert (peek (bump (here src files before n 1) 1) == ">" = false) as ->.
      { destruct k as [|k]; erewrite (lead_peek before n "=" x rest Es); try (rewrite Ex; reflexivity); reflexivity. }
      rewrite (lead_start before n "=" x rest Es Hb).
      unfold add_heading, advance. rewrite (lead_rest before n "=" x rest Es), Ex.
      rewrite span_len_repeat; [|reflexivity|intros y r E; injection E as <- _; discriminate].
      replace (bump (bump (bump (here src files before n 1) 1) k) 1)
        with (set_cur (here src files before n 1) (List.length before + List.length ("=" :: x))).
      + cbn [set_cur here sc_cur bump sc_start].
        replace (List.length before + List.length ("=" :: x) - 1 - List.length before) with (S k)
          by (unfold x; cbn [List.length]; rewrite app_length, repeat_length; cbn; lia).
        destruct k as [|[|[|[|[|k]]]]]; try reflexivity. lia.
      + unfold bump. rewrite !set_cur_set_cur. cbn [set_cur sc_cur here]. f_equal.
        unfold x. cbn [List.length]. rewrite app_length, repeat_length. cbn. lia.
    - (* list item *)
      destruct o; cbn [lead_text item_mark] in Es |- *.
      + unfold scan_token. rewrite (lead_byte before n "." [SP] rest Es). cbn [bind].
        change (scan_delim (bump (here src files before n 1) 1) "."
                = add_token (set_cur (here src files before n 1) (List.length before + 2)) TOrderedListItem false 0).
        unfold scan_delim. rewrite Htag by reflexivity.
        rewrite (lead_not_repeated before n "." [SP] rest Es 2); [|discriminate..].
        rewrite andb_false_r. unfold scan_delim_inner. cbn [Ascii.eqb Bool.eqb].
        assert (beqb (peeks_ahead (bump (here src files before n 1) 1) 2) (bs "..") = false) as ->.
        { apply not_true_is_false. intros K. apply beqb_eq, (peeks_ahead_prefix _ (bs "..")) in K as (r & K); [|discriminate].
          rewrite (lead_rest before n "." [SP] rest Es) in K. discriminate. }
        rewrite (lead_start before n "." [SP] rest Es Hb), (lead_peek before n "." [SP] rest Es SP rest eq_refl eq_refl).
        cbn [Ascii.eqb Bool.eqb]. unfold add_list_item. now rewrite bump_here.
      + unfold scan_token. rewrite (lead_byte before n "*" [SP] rest Es). cbn [bind].
        change (scan_delim (bump (here src files before n 1) 1) "*"
                = add_token (set_cur (here src files before n 1) (List.length before + 2)) TUnorderedListItem false 0).
        unfold scan_delim. rewrite Htag by reflexivity.
        rewrite (lead_not_repeated before n "*" [SP] rest Es 2); [|discriminate..].
        rewrite andb_false_r. unfold scan_delim_inner. cbn [Ascii.eqb Bool.eqb].
        rewrite (lead_start before n "*" [SP] rest Es Hb), (lead_peek before n "*" [SP] rest Es SP rest eq_refl eq_refl).
        cbn [andb Ascii.eqb Bool.eqb]. unfold add_list_item. now rewrite bump_here.
    - (* admonition *)
      assert (forall c kw ty, src = before ++ (c :: kw) ++ rest -> kw <> [] ->
        scan_keyword (bump (here src files before n 1) 1) kw ty true
        = add_token (set_cur (here src files before n 1) (List.length before + List.length (c :: kw))) ty true 0) as K.
      { intros c kw ty E Nk. unfold scan_keyword.
        rewrite (lead_ahead before n c kw rest E (List.length kw) kw rest eq_refl eq_refl Nk Hr), beqb_refl.
        now rewrite bump_here. }
      destruct v; cbn [lead_text label] in Es |- *; unfold scan_token;
        match goal with |- context [bs ?q] => match eval vm_compute in (bs q) with ?c :: ?t =>
          rewrite (lead_byte before n c t rest Es); cbn [bind]; refine (K c t _ Es _); discriminate end end.
    - (* verbatim *)
      destruct (Ha I) as (tail & -> & Ht). destruct v; cbn [lead_text fence] in Es |- *; unfold scan_token;
        match goal with |- context [bs ?q] => match eval vm_compute in (bs q) with ?c :: ?t =>
          rewrite (lead_byte before n c t (NL :: tail) Es); cbn [bind];
          change (scan_delim (bump (here src files before n 1) 1) c
                  = add_token (set_cur (here src files before n 1) (List.length before + 4)) (lead_type (LVerbatim _)) false 0) || idtac;
          match goal with |- _ = add_token _ ?ty _ _ =>
            change (scan_delim (bump (here src files before n 1) 1) c
                    = add_token (set_cur (here src files before n 1) (List.length before + 4)) ty false 0) end;
          unfold scan_delim; rewrite Htag by reflexivity;
          rewrite (lead_start before n c t (NL :: tail) Es Hb), (lead_repeated before n c t (NL :: tail) Es 2 tail eq_refl Ht);
          cbn [andb]; rewrite bump_here; reflexivity end end.
    - destruct (Ha I) as (tail & -> & Ht). destruct b; cbn [lead_text box_fence] in Es |- *; unfold scan_token;
        match goal with |- context [bs ?q] => match eval vm_compute in (bs q) with ?c :: ?t =>
          rewrite (lead_byte before n c t (NL :: tail) Es); cbn [bind];
          match goal with |- _ = add_token ?x ?ty _ _ =>
            change (scan_delim (bump (here src files before n 1) 1) c = add_token x ty false 0) end;
          unfold scan_delim; rewrite Htag by reflexivity;
          rewrite (lead_start before n c t (NL :: tail) Es Hb);
          try (rewrite (lead_repeated before n c t (NL :: tail) Es 2 tail eq_refl Ht);
               cbn [andb]; rewrite bump_here; reflexivity) end end.
      set (sc := bump (here src files before n 1) 1).
      assert (starts_repeated_char_line sc "-" 4 = false) as ->.
      { apply (lead_not_repeated before n "-" ["-"] (NL :: tail) Es 2); discriminate. }
      cbn [andb]. unfold scan_delim_inner. cbn [Ascii.eqb Bool.eqb].
      assert (peek sc = "-") as P by (apply (lead_peek before n "-" ["-"] (NL :: tail) Es "-" (NL :: tail)); reflexivity).
      rewrite P. cbn [Ascii.eqb Bool.eqb]. unfold starts_text_symbol_replace_emdash. rewrite P.
      assert (peeks_ahead sc 2 = ["-"; NL]) as Q.
      { apply (lead_ahead before n "-" ["-"] (NL :: tail) Es 2 _ tail); [reflexivity|reflexivity|discriminate|exact Ht]. }
      rewrite Q. cbn [last Ascii.eqb Bool.eqb andb].
      replace (is_alnum_latin1 NL || memc NL [SP; NUL]) with false by reflexivity.
      unfold sc. rewrite (lead_start before n "-" ["-"] (NL :: tail) Es Hb), (lead_repeated before n "-" ["-"] (NL :: tail) Es 0 tail eq_refl Ht).
      cbn [andb]. now rewrite bump_here.
    - destruct (Ha I) as (tail & -> & Ht). cbn [lead_text] in Es |- *. unfold scan_token.
      rewrite (lead_byte before n "/" (bs "///") (NL :: tail) Es). cbn [bind].
      change (scan_delim (bump (here src files before n 1) 1) "/" = add_token (set_cur (here src files before n 1) (List.length before + 4)) TCommentBlock false 0).
      unfold scan_delim. rewrite Htag by reflexivity.
      rewrite (lead_start before n "/" (bs "///") (NL :: tail) Es Hb), (lead_repeated before n "/" (bs "///") (NL :: tail) Es 2 tail eq_refl Ht).
      cbn [andb]. rewrite bump_here. reflexivity.
    - destruct (Ha I) as (tail & -> & Ht). destruct v; cbn [lead_text] in Es |- *; unfold scan_token.
      + rewrite (lead_byte before n "<" (bs "<<") (NL :: tail) Es). cbn [bind].
        change (scan_lt (bump (here src files before n 1) 1) "<" = add_token (set_cur (here src files before n 1) (List.length before + 3)) TPageBreak false 0).
        unfold scan_lt. rewrite Htag by reflexivity.
        rewrite (lead_repeated before n "<" (bs "<<") (NL :: tail) Es 1 tail eq_refl Ht). now rewrite bump_here.
      + rewrite (lead_byte before n "'" (bs "''") (NL :: tail) Es). cbn [bind].
        change (scan_apostrophe (bump (here src files before n 1) 1) "'" = add_token (set_cur (here src files before n 1) (List.length before + 3)) TThematicBreak false 0).
        unfold scan_apostrophe. rewrite Htag by reflexivity.
        rewrite (lead_repeated before n "'" (bs "''") (NL :: tail) Es 1 tail eq_refl Ht). now rewrite bump_here.
    - destruct (Ha I) as (tail & -> & Ht). cbn [lead_text] in Es |- *. cbn [lead_ok leaf_ok] in Hok. destruct Hok as (_ & Nl & N1 & N2 & N3).
      change (bs "//" ++ s) with ("/" :: "/" :: s) in *. unfold scan_token.
      rewrite (lead_byte before n "/" ("/" :: s) (NL :: tail) Es). cbn [bind].
      change (scan_delim (bump (here src files before n 1) 1) "/"
              = add_token (set_cur (here src files before n 1) (List.length before + List.length ("/" :: "/" :: s))) TComment true 0).
      set (sc := bump (here src files before n 1) 1).
      assert (skipn (sc_cur sc) (sc_src sc) = "/" :: s ++ NL :: tail) as R by (apply (lead_rest before n "/" ("/" :: s)); exact Es).
      unfold scan_delim. rewrite Htag by reflexivity.
      assert (starts_repeated_char_line sc "/" 4 = false) as ->.
      { apply (lead_not_repeated before n "/" ("/" :: s) (NL :: tail) Es 2); [discriminate|].
        cbn [app firstn repeat]. intros [= K]. destruct s as [|d s]; [discriminate|]. injection K as -> _. now apply (N1 s). }
      rewrite andb_false_r. unfold scan_delim_inner. cbn [Ascii.eqb Bool.eqb]. rewrite Htag by reflexivity.
      unfold sc at 1 2. rewrite (lead_start before n "/" ("/" :: s) (NL :: tail) Es Hb).
      rewrite (lead_peek before n "/" ("/" :: s) (NL :: tail) Es "/" (s ++ NL :: tail) eq_refl eq_refl). cbn [andb Ascii.eqb Bool.eqb].
      assert (forall r, s ++ NL :: tail = " " :: "t" :: "a" :: "g" :: ":" :: ":" :: r -> False) as M1.
      { intros r K. destruct s as [|c1 [|c2 [|c3 [|c4 [|c5 [|c6 s]]]]]]; try discriminate K. injection K as -> -> -> -> -> -> _.
        apply N2. exists s. reflexivity. }
      assert (forall r, s ++ NL :: tail = " " :: "e" :: "n" :: "d" :: ":" :: ":" :: r -> False) as M2.
      { intros r K. destruct s as [|c1 [|c2 [|c3 [|c4 [|c5 [|c6 s]]]]]]; try discriminate K. injection K as -> -> -> -> -> -> _.
        apply N3. exists s. reflexivity. }
      fold sc. assert (memb (peeks_ahead sc 7) [bs "/ tag::"; bs "/ end::"] = false) as ->.
      { apply not_true_is_false. intros K. apply memb_In in K. destruct K as [K|[K|[]]]; symmetry in K.
        - apply (peeks_ahead_prefix sc (bs "/ tag::")) in K as (r & K); [|discriminate]. rewrite R in K. injection K as K. now apply M1 in K.
        - apply (peeks_ahead_prefix sc (bs "/ end::")) in K as (r & K); [|discriminate]. rewrite R in K. injection K as K. now apply M2 in K. }
      unfold advance. rewrite R. change ("/" :: s ++ NL :: tail) with (("/" :: s) ++ NL :: tail).
      rewrite (span_len_name (fun c => negb (c == NL)) ("/" :: s) NL tail).
      + unfold sc. now rewrite bump_here.
      + apply Forall_forall. intros c Hc. apply negb_true_iff, Ascii.eqb_neq. rewrite peek_byte_ascii; [|reflexivity|discriminate].
        intros ->. destruct Hc as [Hc|Hc]; [discriminate|contradiction].
      + reflexivity.
    - contradiction Hent. reflexivity.
  Qed.
End Leads.

(** ** Lines *)
Inductive pline := LBlank | LText (r : rich) | LLed (l : lead) (r : rich) | LAlone (l : lead).
Definition pline_text (p : pline) : bytes :=
  match p with
  | LBlank => [] | LText r => spell_rich r | LLed l r => lead_text l ++ spell_rich r | LAlone l => lead_text l
  end.
Definition pline_ok (p : pline) : Prop :=
  match p with
  | LBlank => True
  | LText r => rich_line r
  | LLed l r => lead_ok l /\ ~ lead_alone l /\ rich_line r
  | LAlone l => lead_ok l /\ lead_alone l
  end.
Section Lines.
  Variable files : list bytes.
  Definition pline_toks (n : nat) (p : pline) (ts : list token) : Prop :=
    match p with
    | LBlank => ts = []
    | LText r => rich_toks files n 1 r ts
    | LLed l r => exists ts', ts = lead_tok files n l :: ts' /\ rich_toks files n (1 + List.length (lead_text l)) r ts'
    | LAlone l => ts = [lead_tok files n l]
    end.
  Fixpoint plines_toks (n : nat) (ls : list pline) (ts : list token) : Prop :=
    match ls with
    | [] => ts = []
    | p :: r => exists ts1 ts2, ts = ts1 ++ nl_tok files n (1 + List.length (pline_text p)) :: ts2
                  /\ pline_toks n p ts1 /\ plines_toks (S n) r ts2
    end.
  Lemma plines_app a : forall n b ts, plines_toks n (a ++ b) ts ->
    exists ts1 ts2, ts = ts1 ++ ts2 /\ plines_toks n a ts1 /\ plines_toks (n + List.length a) b ts2.
  Proof.
    induction a as [|p a IH]; intros n b ts H; cbn [app plines_toks List.length] in *.
    - exists [], ts. rewrite Nat.add_0_r. auto.
    - destruct H as (x & y & -> & Hx & Hy). apply IH in Hy as (u & v & -> & Hu & Hv).
      exists (x ++ nl_tok files n (1 + List.length (pline_text p)) :: u), v. split; [now rewrite <- app_assoc|]. split.
      + exists x, u. auto.
      + now rewrite Nat.add_succ_r in *.
  Qed.
End Lines.

Definition psource (l : list pline) : bytes := List.concat (map (fun p => pline_text p ++ [NL]) l).

Section LineRun.
  Variables (src : bytes) (files : list bytes).
  Lemma rich_head r tail : rich_line r -> boundary_head (spell_rich r ++ tail).
  Proof.
    destruct r as [c l]. intros (Ne & Pc & _ & Hf). cbn [fst snd] in *. unfold spell_rich in *. cbn [fst snd] in *.
    rewrite <- app_assoc. destruct (List.concat (map spell_marked l) ++ tail) as [|x y] eqn:E.
    - apply plain_head; [assumption|now left].
    - destruct (spell_chunk c) as [|d s] eqn:Ec.
      + destruct l as [|[[k a] b] l]; [contradiction|]. right. cbn in E. injection E as <- <-. eexists _, _. split; [reflexivity|].
        destruct k; reflexivity.
      + rewrite <- Ec. destruct Pc as [[U _] _]. unfold spell_chunk in *. cbn [spell] in *. destruct (fst c) as [|e f] eqn:Ef.
        * destruct (snd c) as [|[g h] r]; [discriminate|]. right. eexists _, _. split; reflexivity.
        * apply utf8_head in U as [U|(v & w & U & Hv)]; [discriminate|]. right. injection U as <- <-. eexists _, _. split; [reflexivity|exact Hv].
  Qed.
  Lemma lead_head l tail : boundary_head (lead_text l ++ tail).
  Proof. destruct l as [k|[]|[]|[]|[]| |[]|s|name value]; right; eexists _, _; split; reflexivity. Qed.
  Lemma pline_head p tail : pline_ok p -> boundary_head (pline_text p ++ NL :: tail).
  Proof.
    destruct p; cbn [pline_ok pline_text]; intros H.
    - right. exists NL, tail. split; reflexivity.
    - now apply rich_head.
    - rewrite <- app_assoc. apply lead_head.
    - apply lead_head.
  Qed.
  Lemma psource_head l : Forall pline_ok l -> boundary_head (psource l).
  Proof.
    intros [|p r H _]; [now left|]. unfold psource. cbn [map List.concat]. rewrite <- app_assoc. now apply pline_head.
  Qed.

  Lemma lead_run l before n sc rest :
    at_place src files before n 1 sc -> src = before ++ lead_text l ++ rest -> at_line_start before -> lead_ok l ->
    boundary_head rest -> (lead_alone l -> exists tail, rest = NL :: tail /\ boundary_head tail) ->
    exists sc', next sc = Ok (Some (lead_tok files n l), sc')
      /\ at_place src files (before ++ lead_text l) n (1 + List.length (lead_text l)) sc'.
  Proof.
    intros A E Hb Hok Hr Ha.
    assert (lead_type l = TAttribute \/ lead_type l <> TAttribute) as [Ty|Ty]
      by (destruct l as [[|[|[|[]]]]|[]|[]|[]|[]| |[]|s|name value]; (now left) || (right; discriminate)).
    - destruct l as [[|[|[|[]]]]|[]|[]|[]|[]| |[]|s|name value]; try discriminate Ty.
      destruct (Ha I) as (tail & -> & _). destruct Hok as (H1 & _ & _ & _ & H2 & _).
      apply (entry_next src files before n 1 sc name (match value with [] => [] | _ => " " :: value end) tail A); auto.
      destruct value; [intros []|]. intros [K|K]; [discriminate|contradiction].
    - destruct (add_token_next src files before n 1 sc (List.length before + List.length (lead_text l)) (lead_type l) (lead_lit l) 0
        (lead_text l) rest A E eq_refl) as (sc' & N & A'); auto.
      + destruct l as [k|[]|[]|[]|[]| |[]|s|name value]; discriminate.
      + rewrite <- (app_nil_r (lead_text l)). apply lead_head.
      + now apply (lead_branch src files before n l rest).
      + exists sc'. rewrite Nat.add_0_r in A'. split; [exact N|exact A'].
  Qed.

  Lemma pline_run p before n sc tail :
    at_place src files before n 1 sc -> at_line_start before -> boundary_head tail ->
    src = before ++ pline_text p ++ NL :: tail -> pline_ok p ->
    exists ts sc', runs sc (ts ++ [nl_tok files n (1 + List.length (pline_text p))]) sc' /\ pline_toks files n p ts
      /\ at_place src files (before ++ pline_text p ++ [NL]) (S n) 1 sc'
      /\ List.length ts <= List.length (pline_text p).
  Proof.
    intros A Hb Ht E Hok.
    assert (exists ts sc', runs sc ts sc' /\ pline_toks files n p ts
      /\ at_place src files (before ++ pline_text p) n (1 + List.length (pline_text p)) sc'
      /\ List.length ts <= List.length (pline_text p)) as (ts & sc1 & R & T & A1 & L).
    { destruct p as [|r|l r|l]; cbn [pline_text pline_ok pline_toks] in *.
      - exists [], sc. rewrite app_nil_r. cbn. repeat split; try apply A; constructor.
      - destruct (rich_run src files r before n 1 sc tail A E Hok) as (ts & sc' & R & T & A' & L); [auto|].
        exists ts, sc'. auto.
      - destruct Hok as (H1 & H2 & H3).
        destruct (lead_run l before n sc (spell_rich r ++ NL :: tail) A) as (sc1 & N1 & A1); auto.
        { now rewrite E, <- app_assoc. }
        { now apply rich_head. }
        { intros K. contradiction. }
        destruct (rich_run src files r (before ++ lead_text l) n (1 + List.length (lead_text l)) sc1 tail A1) as (ts & sc' & R & T & A' & L); [now rewrite E, <- !app_assoc|assumption| |].
        { right. assert (exists b, lead_text l = b ++ [SP]) as (b & ->).
          { destruct l as [k|[]|[]|v|b| |v|s|name value]; try (exfalso; now apply H2); try (cbn [lead_text]; eexists; reflexivity);
              match goal with |- exists b, ?q = _ => let x := eval vm_compute in (removelast q) in exists x; reflexivity end. }
          exists (before ++ b). now rewrite app_assoc. }
        exists (lead_tok files n l :: ts), sc'. rewrite app_length, Nat.add_assoc, app_assoc. split; [|split; [|split]].
        + econstructor; eassumption.
        + exists ts. auto.
        + exact A'.
        + assert (lead_text l <> []) by (destruct l as [k|[]|[]|[]|[]| |[]|s|name value]; discriminate).
          destruct (lead_text l); [congruence|]. cbn [List.length app] in *. lia.
      - destruct Hok as (H1 & H2).
        destruct (lead_run l before n sc (NL :: tail) A) as (sc1 & N1 & A1); auto.
        { right. exists NL, tail. auto. }
        { intros _. exists tail. auto. }
        exists [lead_tok files n l], sc1. repeat split; try apply A1.
        + econstructor; [eassumption|constructor].
        + assert (lead_text l <> []) by (destruct l as [k|[]|[]|[]|[]| |[]|s|name value]; discriminate).
          destruct (lead_text l); [congruence|]. cbn [List.length app] in *. lia. }
    destruct (next_newline src files _ _ _ _ tail A1) as (sc2 & N2 & A2); auto.
    { now rewrite E, <- app_assoc. }
    exists ts, sc2. split; [|split; [|split]]; auto.
    - eapply runs_app; [exact R|]. econstructor; [exact N2|constructor].
    - rewrite app_assoc. exact A2.
  Qed.

  Lemma plines_run ls : forall before n sc,
    at_place src files before n 1 sc -> at_line_start before -> src = before ++ psource ls -> Forall pline_ok ls ->
    exists ts sc1 sc2, plines_toks files n ls ts /\ runs sc ts sc1
      /\ next sc1 = Ok (Some (final_token (n + List.length ls) files), sc2) /\ next sc2 = Ok (None, sc2)
      /\ List.length ts <= List.length (psource ls).
  Proof.
    induction ls as [|p ls IH]; intros before n sc A Hb E F.
    - destruct (next_end src files _ _ _ _ A) as (sc2 & N2 & N3).
      { rewrite E. cbn. now rewrite app_nil_r. }
      exists [], sc, sc2. rewrite Nat.add_0_r. repeat split; auto; constructor.
    - inversion F as [|? ? F1 F2]; subst x l. unfold psource in E. cbn [map List.concat] in E. fold (psource ls) in E.
      rewrite <- app_assoc in E.
      destruct (pline_run p before n sc (psource ls) A Hb) as (ts & sc1 & R1 & T1 & A1 & L1); auto.
      { now apply psource_head. }
      destruct (IH (before ++ pline_text p ++ [NL]) (S n) sc1 A1) as (ts' & sc2 & sc3 & T2 & R2 & N1 & N2 & L2); auto.
      { right. exists (before ++ pline_text p). now rewrite app_assoc. }
      { now rewrite E, <- !app_assoc. }
      exists (ts ++ nl_tok files n (1 + List.length (pline_text p)) :: ts'), sc2, sc3. repeat split; auto.
      + exists ts, ts'. auto.
      + change (ts ++ ?a :: ts') with (ts ++ [a] ++ ts'). rewrite app_assoc. eapply runs_app; eassumption.
      + cbn [List.length]. now rewrite Nat.add_succ_r in *.
      + unfold psource. cbn [map List.concat]. fold (psource ls). rewrite !app_length. cbn [List.length]. lia.
  Qed.
End LineRun.

Lemma plines_stream files ls : Forall pline_ok ls ->
  exists ts, scan_stream (psource ls) files = (ts ++ [final_token (1 + List.length ls) files], Ok tt) /\ plines_toks files 1 ls ts.
Proof.
  intros F. destruct (plines_run (psource ls) files ls [] 1 (new_with_stack (psource ls) files)) as (ts & sc1 & sc2 & T & R & N1 & N2 & L); auto.
  - repeat split.
  - now left.
  - exists ts. split; [|exact T]. unfold scan_stream. eapply runs_stream; eauto. lia.
Qed.
