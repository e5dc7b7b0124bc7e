(** * Lemmas on white space and characters *)
From Verif Require Import Base Inline Docx SpecScan SpecText ScanLemmas ScanLine DocGraph.
Local Open Scope char_scope.
Local Open Scope nat_scope.

Definition char_ok (ch : bytes) : Prop := match ch with c :: r => is_cont c = false /\ Forall (fun d => is_cont d = true) r | [] => False end.
Lemma chars_ok s : starts_char s -> Forall char_ok (chars s).
Proof.
  assert (forall s, match chars s with
    | [] => s = []
    | (c :: r) :: l => (exists t, s = c :: t) /\ Forall (fun d => is_cont d = true) r /\ Forall char_ok l
    | [] :: _ => False end) as K.
  { clear s. induction s as [|c s IH]; [reflexivity|]. cbn. destruct (chars s) as [|[|d w] ws].
    - subst s. split; [eexists; reflexivity|]. split; constructor.
    - destruct IH.
    - destruct IH as ((t & ->) & W & L). destruct (is_cont d) eqn:D.
      + split; [eexists; reflexivity|]. split; [now constructor|exact L].
      + split; [eexists; reflexivity|]. split; [constructor|]. constructor; [now split|exact L]. }
  intros S. specialize (K s). destruct (chars s) as [|[|c r] l]; [constructor|destruct K|].
  destruct K as ((t & ->) & R & L). constructor; [|exact L]. now split.
Qed.
Lemma chars_app_char ch s : char_ok ch -> starts_char s -> chars (ch ++ s) = ch :: chars s.
Proof.
  destruct ch as [|c r]; [intros []|]. intros [C R] S. clear C. revert c. induction R as [|d r D R IH]; intros c.
  - cbn. destruct s as [|d s]; [reflexivity|]. destruct (chars_head d s) as (w & ws & E). rewrite E. cbn in S. now rewrite S.
  - change ((c :: d :: r) ++ s) with (c :: (d :: r) ++ s). cbn [chars]. rewrite IH. now rewrite D.
Qed.
Lemma starts_concat l : Forall char_ok l -> starts_char (List.concat l).
Proof. destruct 1 as [|[|c r] l K L]; [exact I|destruct K|]. apply K. Qed.
Lemma chars_concat l : Forall char_ok l -> chars (List.concat l) = l.
Proof. induction 1 as [|ch l K L IH]; [reflexivity|]. cbn. rewrite chars_app_char; [now rewrite IH|exact K|now apply starts_concat]. Qed.

Lemma utf8_app a b : utf8 a -> utf8 b -> utf8 (a ++ b).
Proof. intros A B. induction A; cbn [app]; [exact B|now apply utf8_1|now apply utf8_2|now apply utf8_3|now apply utf8_4]. Qed.

(** ** White space *)
Lemma white_1 b : is_ws [b] = true -> In [b] whites.
Proof. destruct b as [[] [] [] [] [] [] [] []]; intros H; vm_compute in H; try discriminate H; vm_compute; tauto. Qed.
Ltac byte H x :=
  rewrite <- (ascii_N_embedding x);
  destruct (N_of_ascii x); [discriminate H|]; repeat match goal with p : positive |- _ => destruct p; try discriminate H end.
Lemma white_2 a b : is_ws [a; b] = true -> In [a; b] whites.
Proof.
  unfold is_ws. cbn [map]. intros H. assert (a = "194") as ->.
  { byte H a; try reflexivity; exfalso.
    all: destruct (N_of_ascii b); [discriminate H|]; repeat match goal with p : positive |- _ => destruct p; try discriminate H end. }
  revert H. change (N_of_ascii "194") with 194%N. cbv iota beta.
  destruct b as [[] [] [] [] [] [] [] []]; intros H; vm_compute in H; try discriminate H; vm_compute; tauto.
Qed.
Lemma white_3 a b c : is_ws [a; b; c] = true -> In [a; b; c] whites.
Proof.
  unfold is_ws. cbn [map]. intros H.
  assert (In a ["225"; "226"; "227"]) as A by (byte H a; cbn; tauto).
  cbn [In] in A. destruct A as [<-|[<-|[<-|[]]]].
  - change (N_of_ascii "225") with 225%N in H. assert (b = "154") as -> by (byte H b; reflexivity).
    change (N_of_ascii "154") with 154%N in H. assert (c = "128") as -> by (byte H c; reflexivity). vm_compute; tauto.
  - change (N_of_ascii "226") with 226%N in H. assert (In b ["128"; "129"]) as A by (byte H b; cbn; tauto).
    cbn [In] in A. destruct A as [<-|[<-|[]]].
    + change (N_of_ascii "128") with 128%N in H. cbv iota beta in H.
      destruct c as [[] [] [] [] [] [] [] []]; vm_compute in H; try discriminate H; vm_compute; tauto.
    + change (N_of_ascii "129") with 129%N in H. assert (c = "159") as -> by (byte H c; reflexivity). vm_compute; tauto.
  - change (N_of_ascii "227") with 227%N in H. assert (b = "128") as -> by (byte H b; reflexivity).
    change (N_of_ascii "128") with 128%N in H. assert (c = "128") as -> by (byte H c; reflexivity). vm_compute; tauto.
Qed.
Lemma white_spec ch : white ch = is_ws ch.
Proof.
  unfold white. destruct (in_dec _ ch whites) as [I|N].
  - symmetry. revert ch I. apply Forall_forall. unfold whites. repeat (apply Forall_cons; [reflexivity|]). apply Forall_nil.
  - destruct (is_ws ch) eqn:E; [|reflexivity]. elim N. destruct ch as [|a [|b [|c [|d r]]]]; [discriminate E|now apply white_1|now apply white_2|now apply white_3|].
    exfalso. revert E. unfold is_ws. cbn [map].
    destruct (N_of_ascii a); [discriminate|]. repeat match goal with p : positive |- _ => destruct p; try discriminate end.
    all: destruct (N_of_ascii b); [discriminate|]; repeat match goal with p : positive |- _ => destruct p; try discriminate end.
    all: destruct (N_of_ascii c); [discriminate|]; repeat match goal with p : positive |- _ => destruct p; try discriminate end.
Qed.

(** ** Lines joined *)
Lemma nl_char ch : is_nl_char ch = if list_eq_dec Ascii.ascii_dec ch ["010"] then true else false.
Proof.
  unfold is_nl_char. destruct (list_eq_dec _ ch ["010"]) as [->|N]; [reflexivity|]. now apply beqb_neq.
Qed.
Definition all_white (l : list bytes) : Prop := Forall (fun ch => is_ws ch = true) l.
Lemma collapsed l : forall run,
  collapse_nl l run = let (t, absorbed) := flatten l in if absorbed then t else flush_ws run ++ t.
Proof.
  induction l as [|ch l IH]; intros run; cbn [collapse_nl flatten]; [now rewrite app_nil_r|].
  pose proof (nl_char ch) as NC. rewrite white_spec. destruct (flatten l) as (t, ab).
  destruct (list_eq_dec _ ch ["010"]) as [->|N].
  - change (is_ws ["010"]) with true. cbv iota. rewrite IH. destruct ab; [reflexivity|]. reflexivity.
  - destruct (is_ws ch).
    + rewrite IH. destruct ab; [reflexivity|]. cbn [andb]. unfold flush_ws. cbn [existsb take_while]. rewrite NC. cbn [orb negb].
      destruct (existsb is_nl_char run); cbn [rev app]; rewrite <- app_assoc; reflexivity.
    + rewrite IH. cbn [andb]. destruct ab; reflexivity.
Qed.
Lemma flatten_collapse l : collapse_nl l [] = fst (flatten l).
Proof. rewrite collapsed. destruct (flatten l) as (t, []); reflexivity. Qed.

(** ** Characters *)
Lemma cont_in x : byte_in 128 191 x -> is_cont x = true.
Proof. destruct x as [[] [] [] [] [] [] [] []]; intros (A & B); vm_compute in A, B; try (exfalso; congruence); reflexivity. Qed.
Lemma in_cont x : is_cont x = true -> byte_in 128 191 x.
Proof. destruct x as [[] [] [] [] [] [] [] []]; intros H; try discriminate H; split; vm_compute; congruence. Qed.
Lemma uncont_in a b x : byte_in a b x -> (b < 128 \/ 191 < a)%N -> is_cont x = false.
Proof. intros H C. destruct (is_cont x) eqn:E; [|reflexivity]. apply in_cont in E. unfold byte_in in *. lia. Qed.
Lemma one_character ch : utf8 ch -> char_ok ch -> character ch.
Proof.
  destruct ch as [|c r]; [intros _ []|]. intros U (C & R). split; [discriminate|]. split; [exact U|].
  intros a b E Ua Ub. destruct a as [|x a]; [now left|]. right. injection E as <- ->. destruct (utf8_head b Ub) as [|(y & t & -> & Y)]; [assumption|].
  apply Forall_app in R as (_ & R). inversion R; subst. congruence.
Qed.
Lemma characters s : utf8 s -> Forall character (chars s).
Proof.
  assert (forall ch s, utf8 ch -> char_ok ch -> utf8 s -> Forall character (chars s) -> Forall character (chars (ch ++ s))) as K.
  { intros ch t U C Ut F. rewrite chars_app_char; [|exact C|]. { constructor; [now apply one_character|exact F]. }
    destruct (utf8_head t Ut) as [->|(x & r & -> & X)]; [exact I|exact X]. }
  induction 1.
  - constructor.
  - apply (K [a]); auto; [apply utf8_1; auto; constructor|]. split; [eapply uncont_in; [eassumption|lia]|constructor].
  - apply (K [a; b]); auto; [apply utf8_2; auto; constructor|]. split; [eapply uncont_in; [eassumption|lia]|].
    constructor; [now apply cont_in|constructor].
  - apply (K [a; b; c]); auto; [apply utf8_3; auto; constructor|]. split; [eapply uncont_in; [eassumption|lia]|].
    constructor; [now apply cont_in|constructor; [now apply cont_in|constructor]].
  - apply (K [a; b; c; d]); auto; [apply utf8_4; auto; constructor|]. split; [eapply uncont_in; [eassumption|lia]|].
    constructor; [now apply cont_in|constructor; [now apply cont_in|constructor; [now apply cont_in|constructor]]].
Qed.
Lemma one_line s : utf8 s -> on_one_line s (replace_ws_newline s).
Proof.
  intros U. exists (chars s). split; [now apply characters|]. split; [symmetry; apply unchars_chars|].
  unfold replace_ws_newline. now rewrite flatten_collapse.
Qed.
Lemma character_ok ch : character ch -> char_ok ch.
Proof.
  intros (N & U & D). destruct U as [|a s A U|a b s A B U|a b c s A B C U|a b c d s A B C E U]; [congruence|..].
  - destruct (D [a] s) as [K|K]; [reflexivity|apply utf8_1; auto; constructor|exact U|discriminate K|subst].
    split; [eapply uncont_in; [exact A|lia]|constructor].
  - destruct (D [a; b] s) as [K|K]; [reflexivity|apply utf8_2; auto; constructor|exact U|discriminate K|subst].
    split; [eapply uncont_in; [exact A|lia]|]. constructor; [now apply cont_in|constructor].
  - destruct (D [a; b; c] s) as [K|K]; [reflexivity|apply utf8_3; auto; constructor|exact U|discriminate K|subst].
    split; [eapply uncont_in; [exact A|lia]|]. constructor; [now apply cont_in|constructor; [now apply cont_in|constructor]].
  - destruct (D [a; b; c; d] s) as [K|K]; [reflexivity|apply utf8_4; auto; constructor|exact U|discriminate K|subst].
    split; [eapply uncont_in; [exact A|lia]|]. constructor; [now apply cont_in|constructor; [now apply cont_in|constructor; [now apply cont_in|constructor]]].
Qed.
Lemma one_line_only s t : on_one_line s t -> t = replace_ws_newline s.
Proof.
  intros (l & F & -> & ->). unfold replace_ws_newline. rewrite chars_concat by (eapply Forall_impl; [|exact F]; apply character_ok).
  now rewrite flatten_collapse.
Qed.


(** ** Newlines and leading white space *)
Lemma joined_newline s : joined s (replace_newline s).
Proof.
  unfold joined, replace_newline. induction s as [|c s IH]; [constructor|]. cbn [map]. constructor; [|exact IH].
  destruct (Ascii.ascii_dec c "010") as [->|N]; [reflexivity|]. destruct (Ascii.eqb c NL) eqn:E; [|reflexivity]. now apply Ascii.eqb_eq in E.
Qed.
Lemma newline_utf8 s : utf8 s -> utf8 (replace_newline s).
Proof.
  assert (forall lo hi c, byte_in lo hi c -> (10 < lo)%N -> (if Ascii.eqb c NL then SP else c) = c) as K.
  { intros lo hi c H L. destruct (Ascii.eqb c NL) eqn:E; [|reflexivity]. apply Ascii.eqb_eq in E as ->. unfold byte_in in H. change (N_of_ascii NL) with 10%N in H. lia. }
  induction 1; unfold replace_newline in *; cbn [map].
  - constructor.
  - apply utf8_1; [|exact IHutf8]. destruct (Ascii.eqb a NL); [split; vm_compute; discriminate|exact H].
  - rewrite (K _ _ a H), (K _ _ b H0) by lia. now apply utf8_2.
  - rewrite (K _ _ a H), (K _ _ b H0), (K _ _ c H1) by lia. now apply utf8_3.
  - rewrite (K _ _ a H), (K _ _ b H0), (K _ _ c H1), (K _ _ d H2) by lia. now apply utf8_4.
Qed.
Lemma characters_utf8 l : Forall character l -> utf8 (List.concat l).
Proof. induction 1 as [|ch l (_ & U & _) F IH]; [constructor|]. cbn [List.concat]. now apply utf8_app. Qed.
Lemma unindent_chars l : Forall character l -> unindented (List.concat l) (List.concat (drop_while is_ws l)).
Proof.
  induction 1 as [|ch l C F (w & W1 & W2 & W3 & W4)]; [exists []; split; [constructor|]; split; [reflexivity|]; split; [constructor|now left]|].
  cbn [drop_while List.concat]. destruct (is_ws ch) eqn:E.
  - exists (ch :: w). split; [now constructor|]. split; [cbn [List.concat]; now rewrite W2, app_assoc|]. split; [|exact W4].
    constructor; [now rewrite white_spec|exact W3].
  - exists []. split; [constructor|]. split; [reflexivity|]. split; [constructor|]. right. exists ch, (List.concat l).
    split; [reflexivity|]. split; [exact C|]. split; [now rewrite white_spec|now apply characters_utf8].
Qed.
Lemma unindent_trim s : utf8 s -> unindented s (trim_start s) /\ utf8 (trim_start s).
Proof.
  intros U. pose proof (characters s U) as F. pose proof (unindent_chars _ F) as K. change (List.concat (chars s)) with (unchars (chars s)) in K.
  rewrite unchars_chars in K. split; [exact K|]. apply characters_utf8.
  clear K U. induction F as [|ch l C F IH]; [constructor|]. cbn [drop_while]. destruct (is_ws ch); [exact IH|now constructor].
Qed.
