(** * Simple documents: tokens and graph *)
From Verif Require Import Base World Location Token Scanner Meta Inline Block Asg Parser SpecScan SpecStart SpecLoc
  SpecDoc ScanLemmas ScanFacts ScanMain ScanMain2 ScanLine ScanStart ScanDoc LocProofs.
Local Open Scope char_scope.
Local Open Scope nat_scope.

(** ** Tokens *)
Local Ltac napp := cbn [spell]; repeat first [rewrite <- app_assoc | progress cbn [app]]; reflexivity.
Section Tokens.
  Variable files : list bytes.
  Definition nl_tok (n col : nat) : token := tok TNewLineChar false files n col [NL].
  Definition ref_tok (n col : nat) (name : bytes) : token :=
    tok TAttributeReference false files n col ("{" :: name ++ ["}"]).
  Inductive refs (n : nat) : nat -> list (bytes * bytes) -> list token -> Prop :=
  | refs_nil col : refs n col [] []
  | refs_cons col name s l ts ts' :
      texts files n (col + List.length name + 2) ts s ->
      refs n (col + List.length name + 2 + List.length s) l ts' ->
      refs n col ((name, s) :: l) (ref_tok n col name :: ts ++ ts').
  Inductive line_tokens (n : nat) : line -> list token -> Prop :=
  | lt_blank : line_tokens n Blank [nl_tok n 1]
  | lt_entry name value :
      line_tokens n (Entry name value)
        [tok TAttribute false files n 1 (spell (Entry name value)); nl_tok n (1 + List.length (spell (Entry name value)))]
  | lt_words s l ts ts' :
      texts files n 1 ts s -> refs n (1 + List.length s) l ts' ->
      line_tokens n (Words s l) (ts ++ ts' ++ [nl_tok n (1 + List.length (spell (Words s l)))]).
  Inductive doc_tokens : nat -> list line -> bytes -> list token -> Prop :=
  | dt_end n fin ts : texts files n 1 ts fin -> doc_tokens n [] fin (ts ++ [final_token n files])
  | dt_line n l ls fin ts ts' : line_tokens n l ts -> doc_tokens (S n) ls fin ts' ->
      doc_tokens n (l :: ls) fin (ts ++ ts').
End Tokens.

Lemma texts_len files n col ts s : texts files n col ts s -> List.length ts <= List.length s.
Proof.
  induction 1 as [|col s ts s' Hs _ _ IH]; cbn; [lia|]. rewrite app_length. destruct s; [congruence|]. cbn in *. lia.
Qed.

Section Scan.
  Variables (src : bytes) (files : list bytes).

  Lemma plain_boundary s r : utf8 s -> boundary_head r -> boundary_head (s ++ r).
  Proof.
    intros H Hr. apply utf8_head in H as [->|(x & y & -> & Hx)]; [exact Hr|]. right. exists x, (y ++ r). auto.
  Qed.

  Lemma refs_closing l s r : closing (s ++ List.concat (map (fun x : bytes * bytes => "{" :: fst x ++ "}" :: snd x) l)) r ->
    closing s (List.concat (map (fun x : bytes * bytes => "{" :: fst x ++ "}" :: snd x) l) ++ r).
  Proof.
    destruct l as [|[a b] l]; [now rewrite app_nil_r|]. intros _. right. cbn. eexists _, _. split; [reflexivity|].
    split; [tauto|discriminate].
  Qed.

  Lemma refs_run l : forall before n col sc tail,
    at_place src files before n col sc ->
    closing (List.concat (map (fun x => "{" :: fst x ++ "}" :: snd x) l)) tail ->
    src = before ++ List.concat (map (fun x => "{" :: fst x ++ "}" :: snd x) l) ++ tail ->
    Forall (fun x => Forall name_char (fst x) /\ plain (snd x)) l ->
    exists ts sc', runs sc ts sc' /\ refs files n col l ts
      /\ at_place src files (before ++ List.concat (map (fun x => "{" :: fst x ++ "}" :: snd x) l)) n
           (col + List.length (List.concat (map (fun x => "{" :: fst x ++ "}" :: snd x) l))) sc'
      /\ List.length ts <= List.length (List.concat (map (fun x => "{" :: fst x ++ "}" :: snd x) l)).
  Proof.
    induction l as [|[name s] l IH]; intros before n col sc tail A Ht E F; cbn [map List.concat fst snd] in *.
    - exists [], sc. rewrite app_nil_r, Nat.add_0_r. repeat split; try apply A; constructor.
    - inversion F as [|? ? [F1 [F2 F3]] F4]; subst x l0. cbn [fst snd] in *.
      set (rest := List.concat (map (fun x : bytes * bytes => "{" :: fst x ++ "}" :: snd x) l)) in *.
      assert (closing (s ++ rest) tail) as Hc.
      { apply (closing_suffix ("{" :: name ++ ["}"])). replace (("{" :: name ++ ["}"]) ++ s ++ rest) with (("{" :: name ++ "}" :: s) ++ rest) by napp. exact Ht. }
      destruct (ref_next src files before n col sc name (s ++ rest ++ tail) A) as (sc1 & N1 & A1); auto.
      { rewrite E. napp. }
      { apply plain_boundary; [assumption|]. apply (closing_boundary s). apply refs_closing. exact Hc. }
      replace (col + List.length ("{" :: name ++ ["}"])) with (col + List.length name + 2) in A1
        by (cbn; rewrite app_length; cbn; lia).
      destruct (text_run src files (List.length s) (before ++ "{" :: name ++ ["}"]) n (col + List.length name + 2) sc1 s (rest ++ tail))
        as (ts & sc2 & R2 & A2 & T2); auto.
      { rewrite E. napp. }
      { apply utf8_head in F2. exact F2. }
      { now apply refs_closing. }
      { intros [K|(b & K)]; [now destruct before|]. exfalso.
        replace (before ++ "{" :: name ++ ["}"]) with ((before ++ "{" :: name) ++ ["}"]) in K by now rewrite <- app_assoc.
        apply app_inj_tail in K as [_ K]. discriminate. }
      apply closing_suffix in Hc.
      destruct (IH ((before ++ "{" :: name ++ ["}"]) ++ s) n (col + List.length name + 2 + List.length s) sc2 tail)
        as (ts' & sc3 & R3 & T3 & A3 & L3); auto.
      { rewrite E. napp. }
      exists (ref_tok files n col name :: ts ++ ts'), sc3. split; [|split; [|split]].
      + econstructor; [exact N1|]. eapply runs_app; eassumption.
      + now constructor.
      + replace (before ++ ("{" :: name ++ "}" :: s) ++ rest) with (((before ++ "{" :: name ++ ["}"]) ++ s) ++ rest)
          by napp.
        replace (col + List.length (("{" :: name ++ "}" :: s) ++ rest))
          with (col + List.length name + 2 + List.length s + List.length rest)
          by (cbn; rewrite ?app_length; cbn; rewrite ?app_length; lia).
        exact A3.
      + apply texts_len in T2. fold rest in L3. cbn. rewrite !app_length. cbn. rewrite ?app_length. cbn. rewrite ?app_length. lia.
  Qed.

  Lemma line_run l before n sc tail :
    at_place src files before n 1 sc -> at_line_start before -> boundary_head tail ->
    src = before ++ (spell l ++ [NL]) ++ tail -> simple_line l ->
    exists ts sc', runs sc ts sc' /\ line_tokens files n l ts
      /\ at_place src files (before ++ spell l ++ [NL]) (S n) 1 sc'
      /\ List.length ts <= List.length (spell l ++ [NL]).
  Proof.
    intros A Hb Ht E Hl. destruct l as [|name value|s l].
    - cbn [spell] in *. destruct (next_newline src files before n 1 sc tail A E Ht) as (sc' & N & A').
      exists [nl_tok files n 1], sc'. repeat split; try apply A'; [|constructor|cbn; lia].
      econstructor; [exact N|constructor].
    - destruct Hl as (H1 & _ & _ & _ & H2 & _). set (body := match value with [] => [] | _ => " " :: value end).
      assert (spell (Entry name value) = ":" :: name ++ ":" :: body) as Sp by reflexivity. rewrite Sp in *.
      destruct (entry_next src files before n 1 sc name body tail A) as (sc1 & N1 & A1); auto.
      { rewrite E. napp. }
      { unfold body. destruct value; [intros []|]. intros [K|K]; [discriminate|contradiction]. }
      destruct (next_newline src files _ _ _ _ tail A1) as (sc2 & N2 & A2); auto.
      { rewrite E. napp. }
      exists [tok TAttribute false files n 1 (":" :: name ++ ":" :: body);
              nl_tok files n (1 + List.length (":" :: name ++ ":" :: body))], sc2.
      split; [|split; [|split]].
      + econstructor; [exact N1|]. econstructor; [exact N2|constructor].
      + rewrite <- Sp. constructor.
      + rewrite app_assoc. exact A2.
      + rewrite app_length. cbn. lia.
    - destruct Hl as (Hne & (U & M) & Hst & F). cbn [spell] in *.
      set (rest := List.concat (map (fun x : bytes * bytes => "{" :: fst x ++ "}" :: snd x) l)) in *.
      assert (forall x, closing x ([NL] ++ tail)) as Hc
        by (intros x; right; eexists _, _; split; [reflexivity|split; [cbn; tauto|discriminate]]).
      destruct (text_run src files (List.length s) before n 1 sc s (rest ++ [NL] ++ tail))
        as (ts & sc1 & R1 & A1 & T1); auto.
      { rewrite E. napp. }
      { apply utf8_head in U. exact U. }
      { now apply refs_closing. }
      destruct (refs_run l (before ++ s) n (1 + List.length s) sc1 ([NL] ++ tail) A1 (Hc _)) as (ts' & sc2 & R2 & T2 & A2 & L2); auto.
      { fold rest. rewrite E, <- !app_assoc. reflexivity. }
      fold rest in A2, L2.
      destruct (next_newline src files _ _ _ _ tail A2) as (sc3 & N3 & A3); auto.
      { rewrite E. napp. }
      exists (ts ++ ts' ++ [nl_tok files n (1 + List.length (s ++ rest))]), sc3. split; [|split; [|split]].
      + eapply runs_app; [exact R1|]. eapply runs_app; [exact R2|]. econstructor; [|constructor].
        rewrite N3. unfold nl_tok. now rewrite app_length, Nat.add_assoc.
      + now constructor.
      + rewrite !app_assoc. rewrite ?app_assoc in A3. exact A3.
      + apply texts_len in T1. rewrite !app_length. cbn. lia.
  Qed.

  Lemma source_cons l ls : source (l :: ls) = (spell l ++ [NL]) ++ source ls.
  Proof. reflexivity. Qed.

  Lemma simple_boundary ls fin : Forall simple_line ls -> utf8 fin -> boundary_head (source ls ++ fin).
  Proof.
    intros F U. destruct F as [|l ls Hl _].
    - now apply utf8_head in U.
    - rewrite source_cons, <- !app_assoc. destruct l as [|name value|s l].
      + right. eexists _, _. split; reflexivity.
      + right. eexists _, _. split; reflexivity.
      + destruct Hl as (_ & (U' & _) & _). cbn [spell]. rewrite <- !app_assoc. apply plain_boundary; [assumption|].
        destruct l as [|[a b] l]; right; eexists _, _; split; reflexivity.
  Qed.

  Lemma doc_run ls : forall before n sc fin,
    at_place src files before n 1 sc -> at_line_start before ->
    src = before ++ source ls ++ fin -> Forall simple_line ls -> plain fin -> plain_start fin ->
    exists ts t sc1 sc2, doc_tokens files n ls fin (ts ++ [t]) /\ runs sc ts sc1
      /\ next sc1 = Ok (Some t, sc2) /\ next sc2 = Ok (None, sc2)
      /\ List.length ts <= List.length (source ls ++ fin).
  Proof.
    induction ls as [|l ls IH]; intros before n sc fin A Hb E F [U M] Hst.
    - destruct (text_run src files (List.length fin) before n 1 sc fin []) as (ts & sc1 & R1 & A1 & T1); auto.
      { rewrite E, app_nil_r. reflexivity. }
      { now apply utf8_head in U. }
      { now left. }
      destruct (next_end _ _ _ _ _ _ A1) as (sc2 & N2 & N3).
      { rewrite E. reflexivity. }
      exists ts, (final_token n files), sc1, sc2. repeat split; auto.
      + now constructor.
      + apply texts_len in T1. exact T1.
    - inversion F as [|? ? F1 F2]; subst x l0. rewrite source_cons, <- app_assoc in E.
      destruct (line_run l before n sc (source ls ++ fin) A Hb) as (ts & sc1 & R1 & T1 & A1 & L1); auto.
      { now apply simple_boundary. }
      destruct (IH (before ++ spell l ++ [NL]) (S n) sc1 fin A1) as (ts' & t & sc2 & sc3 & D & R2 & N1 & N2 & L2); auto.
      { right. exists (before ++ spell l). now rewrite app_assoc. }
      { rewrite E. napp. }
      { now split. }
      exists (ts ++ ts'), t, sc2, sc3. repeat split; auto.
      + rewrite <- app_assoc. now constructor.
      + eapply runs_app; eassumption.
      + rewrite source_cons, <- app_assoc, !app_length in *. lia.
  Qed.
End Scan.

Lemma doc_stream files ls fin : Forall simple_line ls -> plain fin -> plain_start fin ->
  exists ts, scan_stream (source ls ++ fin) files = (ts, Ok tt) /\ doc_tokens files 1 ls fin ts.
Proof.
  intros F P S.
  destruct (doc_run (source ls ++ fin) files ls [] 1 (new_with_stack (source ls ++ fin) files) fin)
    as (ts & t & sc1 & sc2 & D & R & N1 & N2 & L); auto.
  - repeat split.
  - now left.
  - exists (ts ++ [t]). split; [|exact D]. unfold scan_stream. eapply runs_stream; eauto. lia.
Qed.
