(** * Lemmas about the scanner: positions, peeking, and what each branch yields *)
From Verif Require Import Base Location Token Scanner SpecScan.
Local Open Scope char_scope.
Local Open Scope nat_scope.

(** ** Generic *)
Lemma bind_ok {E A B} (m : res E A) (f : A -> res E B) b :
  bind m f = Ok b -> exists a, m = Ok a /\ f a = Ok b.
Proof. destruct m; cbn; intros H; try discriminate. eauto. Qed.

Lemma beqb_eq a b : beqb a b = true <-> a = b.
Proof.
  revert b; induction a as [|x a IH]; intros [|y b]; cbn; split; intros H; try congruence.
  - apply andb_true_iff in H as [H1 H2]. apply Ascii.eqb_eq in H1. apply IH in H2. congruence.
  - injection H as -> ->. rewrite Ascii.eqb_refl. cbn. now apply IH.
Qed.
Lemma beqb_refl a : beqb a a = true. Proof. now apply beqb_eq. Qed.
Lemma beqb_neq a b : beqb a b = false <-> a <> b.
Proof. rewrite <- not_true_iff_false, beqb_eq. tauto. Qed.
Lemma memc_In c l : memc c l = true <-> In c l.
Proof.
  unfold memc. rewrite existsb_exists. split.
  - intros [x [H1 H2]]. apply Ascii.eqb_eq in H2. now subst.
  - intros H. exists c. split; [assumption | apply Ascii.eqb_refl].
Qed.
Lemma memb_In c l : memb c l = true <-> In c l.
Proof.
  unfold memb. rewrite existsb_exists. split.
  - intros [x [H1 H2]]. apply beqb_eq in H2. now subst.
  - intros H. exists c. split; [assumption | apply beqb_refl].
Qed.

Lemma skipn_nth {A} (l : list A) i x : nth_error l i = Some x -> skipn i l = x :: skipn (S i) l.
Proof.
  revert i; induction l as [|y l IH]; intros [|i] H; cbn in *; try discriminate.
  - congruence.
  - now apply IH in H.
Qed.
Lemma skipn_skipn' {A} (l : list A) a b : skipn a (skipn b l) = skipn (b + a) l.
Proof.
  revert l; induction b as [|b IH]; intros l; cbn; [reflexivity|].
  destruct l; [now rewrite skipn_nil | apply IH].
Qed.
Lemma firstn_add {A} (l : list A) a b : firstn (a + b) l = firstn a l ++ firstn b (skipn a l).
Proof.
  revert l; induction a as [|a IH]; intros l; cbn; [reflexivity|].
  destruct l; cbn; [now rewrite firstn_nil | now rewrite IH].
Qed.
Lemma nth_error_skipn' {A} (l : list A) a b : nth_error (skipn a l) b = nth_error l (a + b).
Proof.
  revert l; induction a as [|a IH]; intros [|x l]; cbn; try reflexivity.
  - now destruct b.
  - apply IH.
Qed.

(** ** [set_cur] normal form *)
Lemma set_cur_set_cur sc a b : set_cur (set_cur sc a) b = set_cur sc b.
Proof. reflexivity. Qed.
Lemma set_cur_id sc : set_cur sc (sc_cur sc) = sc.
Proof. now destruct sc. Qed.
Lemma bump_set_cur sc a b : bump (set_cur sc a) b = set_cur sc (a + b).
Proof. reflexivity. Qed.

(** ** Slices *)
Lemma slice_ok {E} s a b t : slice (E := E) s a b = Ok t ->
  a <= b /\ b <= List.length s /\ is_boundary s a = true /\ is_boundary s b = true
  /\ t = firstn (b - a) (skipn a s).
Proof.
  unfold slice. destruct (a <=? b) eqn:H1, (b <=? List.length s) eqn:H2,
    (is_boundary s a) eqn:H3, (is_boundary s b) eqn:H4; cbn; intros H; try discriminate.
  injection H as <-. apply Nat.leb_le in H1, H2. auto.
Qed.

Lemma slice_len {A} (s : list A) a b : a <= b -> b <= List.length s ->
  List.length (firstn (b - a) (skipn a s)) = b - a.
Proof. intros. rewrite firstn_length, skipn_length. lia. Qed.

(** ** [validate] keeps everything but type and literal *)
Lemma validate_fields t :
  lexeme (validate t) = lexeme t /\ tline (validate t) = tline t
  /\ startcol (validate t) = startcol t /\ endcol (validate t) = endcol t
  /\ tfiles (validate t) = tfiles t.
Proof.
  unfold validate. destruct (ttype t); auto.
  - destruct (charref_replacement (lexeme t)); auto.
  - destruct (memc SP (lexeme t) || memc NL (lexeme t)); auto.
  - destruct (memc SP (lexeme t) || memc NL (lexeme t)); auto.
Qed.

Lemma validate_type t : ttype (validate t) = ttype t \/
  (ttype (validate t) = TText /\ (ttype t = TBlockAnchor \/ ttype t = TCrossReference)).
Proof.
  unfold validate. destruct (ttype t) eqn:H; auto.
  - destruct (charref_replacement (lexeme t)); auto.
  - destruct (memc SP (lexeme t) || memc NL (lexeme t)); auto.
  - destruct (memc SP (lexeme t) || memc NL (lexeme t)); auto.
Qed.

(** ** Peeking *)
Lemma peek_byte_ascii b c : is_cont c = false -> c <> NUL -> peek_byte b = c <-> b = c.
Proof.
  intros Hc Hn. unfold peek_byte. destruct (is_cont b) eqn:Hb; split; intros H.
  - now elim Hn.
  - subst. rewrite Hb in Hc. discriminate.
  - exact H.
  - exact H.
Qed.

Lemma peek_at_some src i c : is_cont c = false -> c <> NUL ->
  peek_at src i = c <-> nth_error src i = Some c.
Proof.
  intros Hc Hn. unfold peek_at. destruct (nth_error src i) as [b|].
  - rewrite peek_byte_ascii by assumption. split; congruence.
  - split; congruence.
Qed.

Lemma peeks_ahead_eq sc n s :
  peeks_ahead sc n = s -> s <> [NUL] ->
  sc_cur sc + n <= List.length (sc_src sc) /\ s = firstn n (skipn (sc_cur sc) (sc_src sc))
  /\ is_boundary (sc_src sc) (sc_cur sc + n) = true /\ sc_cur sc < List.length (sc_src sc).
Proof.
  unfold peeks_ahead, is_at_end. intros H Hs.
  destruct (List.length (sc_src sc) <=? sc_cur sc) eqn:H1; cbn [orb negb] in H; [congruence|].
  destruct (List.length (sc_src sc) <? sc_cur sc + n) eqn:H2; cbn [orb negb] in H; [congruence|].
  destruct (is_boundary (sc_src sc) (sc_cur sc + n)) eqn:H3; cbn [orb negb] in H; [|congruence].
  apply Nat.leb_gt in H1. apply Nat.ltb_ge in H2. auto.
Qed.

Lemma peeks_ahead_prefix sc s :
  peeks_ahead sc (List.length s) = s -> s <> [NUL] ->
  exists r, skipn (sc_cur sc) (sc_src sc) = s ++ r.
Proof.
  intros H Hs. apply peeks_ahead_eq in H as (H1 & H2 & _ & _); [|assumption].
  exists (skipn (List.length s) (skipn (sc_cur sc) (sc_src sc))).
  rewrite H2 at 1. symmetry. apply firstn_skipn.
Qed.

(** ** [advance] *)
Lemma span_len_le p l : span_len p l <= List.length l.
Proof. induction l as [|b l IH]; cbn; [lia|]. destruct (p (peek_byte b)); lia. Qed.
Lemma span_len_all p l : Forall (fun b => p (peek_byte b) = true) (firstn (span_len p l) l).
Proof.
  induction l as [|b l IH]; cbn; [constructor|].
  destruct (p (peek_byte b)) eqn:H; cbn; constructor; assumption.
Qed.
Lemma span_len_stop p l b : nth_error l (span_len p l) = Some b -> p (peek_byte b) = false.
Proof.
  induction l as [|x l IH]; cbn; [discriminate|].
  destruct (p (peek_byte x)) eqn:H; cbn; [assumption|]. intros E; congruence.
Qed.

Lemma advance_set_cur sc p :
  advance sc p = set_cur sc (sc_cur sc + span_len p (skipn (sc_cur sc) (sc_src sc))).
Proof. reflexivity. Qed.

Definition adv_len (sc : scanner) (p : ascii -> bool) : nat :=
  span_len p (skipn (sc_cur sc) (sc_src sc)).

Lemma advance_cur_le sc p : sc_cur sc <= List.length (sc_src sc) ->
  sc_cur sc <= sc_cur (advance sc p) <= List.length (sc_src sc).
Proof.
  intros H. cbn. pose proof (span_len_le p (skipn (sc_cur sc) (sc_src sc))) as L.
  rewrite skipn_length in L. lia.
Qed.

(** ** What a branch yields
    [emits sc r P]: whenever [r] is a token, it is cut by [add_token] between the
    start of [sc] and some later position [n], with a type satisfying [P]. *)
Definition tag_out (sc sc' : scanner) (t : token) : Prop :=
  is_tag t /\ sc_src sc' = sc_src sc /\ sc_files sc' = sc_files sc
  /\ sc_scanning sc' = sc_scanning sc
  /\ sc_cur sc < sc_cur sc' <= List.length (sc_src sc)
  /\ sc_cur sc < List.length (sc_src sc)
  /\ (is_boundary (sc_src sc) (sc_cur sc') = true
      \/ nth_error (sc_src sc) (sc_cur sc' - 1) = Some NL)
  /\ tfiles t = sc_files sc /\ literal t = Some (lexeme t)
  /\ exists s e, sc_start sc <= s /\ s < e /\ sc_cur sc < e /\ e <= sc_cur sc'
                /\ lexeme t = firstn (e - s) (skipn s (sc_src sc))
                /\ endcol t = startcol t + List.length (lexeme t) - 1
                /\ tline t = sc_line sc /\ sc_line sc' = S (sc_line sc).
Definition emits (sc : scanner) (r : result (scanner * token))
           (P : nat -> token_type -> bool -> nat -> Prop) : Prop :=
  forall sc' t, r = Ok (sc', t) -> tag_out sc sc' t \/
  exists n ty lit adv, sc_cur sc <= n /\ P n ty lit adv
                       /\ add_token (set_cur sc n) ty lit adv = Ok (sc', t).

Lemma emits_add_token sc n ty lit adv (P : nat -> token_type -> bool -> nat -> Prop) :
  sc_cur sc <= n -> P n ty lit adv -> emits sc (add_token (set_cur sc n) ty lit adv) P.
Proof. intros H1 H2 sc' t H. right. exists n, ty, lit, adv. auto. Qed.

Lemma emits_bump sc k ty lit adv (P : nat -> token_type -> bool -> nat -> Prop) :
  P (sc_cur sc + k) ty lit adv -> emits sc (add_token (bump sc k) ty lit adv) P.
Proof. intros H. apply emits_add_token; [lia | exact H]. Qed.

Lemma emits_same sc ty lit adv (P : nat -> token_type -> bool -> nat -> Prop) :
  P (sc_cur sc) ty lit adv -> emits sc (add_token sc ty lit adv) P.
Proof.
  intros H. rewrite <- (set_cur_id sc) at 2. apply emits_add_token; [lia | exact H].
Qed.

Lemma emits_at sc sc2 ty lit adv (P : nat -> token_type -> bool -> nat -> Prop) :
  set_cur sc (sc_cur sc2) = sc2 -> sc_cur sc <= sc_cur sc2 -> P (sc_cur sc2) ty lit adv ->
  emits sc (add_token sc2 ty lit adv) P.
Proof. intros E H1 H2. rewrite <- E. now apply emits_add_token. Qed.

Lemma emits_weaken_sc sc n r (P : nat -> token_type -> bool -> nat -> Prop) :
  sc_cur sc <= n -> emits (set_cur sc n) r P -> emits sc r P.
Proof.
  intros Hn H sc' t E.
  destruct (H _ _ E) as [(T1 & T2 & T3 & T3' & T4 & T5 & T6 & T7 & T7' & s & e & T8)
                        | (m & ty & lit & adv & H1 & H2 & H3)].
  - left. cbn in *. repeat split; try assumption; try lia.
    exists s, e. intuition lia.
  - right. cbn in H1. exists m, ty, lit, adv. split; [lia|]. auto.
Qed.

Lemma emits_bind {A} sc (m : result A) f P :
  (forall a, m = Ok a -> emits sc (f a) P) -> emits sc (bind m f) P.
Proof. intros H sc' t E. apply bind_ok in E as (a & Ha & E). exact (H a Ha sc' t E). Qed.

Lemma emits_if sc (b : bool) r1 r2 P :
  (b = true -> emits sc r1 P) -> (b = false -> emits sc r2 P) ->
  emits sc (if b then r1 else r2) P.
Proof. destruct b; auto. Qed.

Lemma emits_fail sc r (P : nat -> token_type -> bool -> nat -> Prop) : (forall x, r <> Ok x) -> emits sc r P.
Proof. intros H sc' t E. now apply H in E. Qed.

Lemma emits_text sc (P : nat -> token_type -> bool -> nat -> Prop) :
  (forall n, sc_cur sc <= n -> P n TText true 0) -> emits sc (add_text_until_next_markup sc) P.
Proof.
  intros H. unfold add_text_until_next_markup. apply emits_at; [reflexivity | cbn; lia | apply H; cbn; lia].
Qed.

Lemma emits_until_bracket sc ty (P : nat -> token_type -> bool -> nat -> Prop) :
  (forall n, sc_cur sc <= n -> P n ty true 0) -> emits sc (add_until_bracket sc ty) P.
Proof.
  intros H. unfold add_until_bracket. apply emits_bind. intros sc1 H1.
  unfold advance_or_hang in H1. destruct (is_at_end _); [discriminate|]. injection H1 as <-.
  apply emits_at; [reflexivity | cbn; lia | apply H; cbn; lia].
Qed.

Lemma emits_table_cell f sc (P : nat -> token_type -> bool -> nat -> Prop) :
  (forall n, sc_cur sc <= n -> P n TTableCell true 0) -> emits sc (add_table_cell_fuel f sc) P.
Proof.
  revert sc. induction f as [|f IH]; intros sc H; cbn [add_table_cell_fuel];
  set (sc1 := advance sc _); apply emits_if; intros Hc.
  - apply emits_fail; congruence.
  - apply emits_at; [reflexivity | cbn; lia | apply H; cbn; lia].
  - apply (emits_weaken_sc sc (sc_cur (bump sc1 1))); [cbn; lia|].
    apply IH. intros n Hn. apply H. cbn in Hn. lia.
  - apply emits_at; [reflexivity | cbn; lia | apply H; cbn; lia].
Qed.

Lemma emits_link f sc (P : nat -> token_type -> bool -> nat -> Prop) :
  (forall n, sc_cur sc <= n -> P n TLinkMacro true 0 /\ P n THyperlink true 0) ->
  emits sc (add_link_fuel f sc) P.
Proof.
  revert sc. induction f as [|f IH]; intros sc H; cbn [add_link_fuel];
  set (sc1 := advance sc _); repeat (apply emits_if; intros ?);
  try (apply emits_fail; congruence);
  try (apply emits_at; [reflexivity | cbn; lia | apply H; cbn; lia]).
  apply (emits_weaken_sc sc (sc_cur (bump sc1 1))); [cbn; lia|].
  apply IH. intros n Hn. apply H. cbn in Hn. lia.
Qed.

Lemma boundary_loop_ge src stop f cur n : boundary_loop src stop f cur = Ok n -> cur <= n.
Proof.
  revert cur; induction f as [|f IH]; intros cur; cbn [boundary_loop];
  repeat match goal with |- context [if ?b then _ else _] => destruct b end;
  intros H; try discriminate; try (injection H as <-; lia); apply IH in H; lia.
Qed.

Lemma emits_until_stop sc stop ty (P : nat -> token_type -> bool -> nat -> Prop) :
  (forall n, sc_cur sc <= n -> P n ty true 0) -> emits sc (add_until_stop sc stop ty) P.
Proof.
  intros H. unfold add_until_stop. apply emits_bind. intros n Hn.
  apply boundary_loop_ge in Hn. apply emits_at; [reflexivity | cbn; lia | apply H; cbn; lia].
Qed.

Lemma emits_inline sc c ty1 ty2 (P : nat -> token_type -> bool -> nat -> Prop) :
  (forall n, sc_cur sc <= n -> P n ty1 false 0 /\ P n ty2 false 0 /\ P n TText true 0) ->
  emits sc (handle_inline_formatting sc c ty1 ty2) P.
Proof.
  intros H. unfold handle_inline_formatting. repeat (apply emits_if; intros ?);
  try (apply emits_text; intros; now apply H).
  - apply emits_bump. apply H. lia.
  - apply emits_same. apply H. lia.
Qed.

Lemma boundary_nl s i : nth_error s i = Some NL -> is_boundary s i = true.
Proof. intros H. unfold is_boundary. rewrite H. now rewrite orb_true_r. Qed.

Lemma boundary_ascii s i c : nth_error s i = Some c -> is_cont c = false -> is_boundary s i = true.
Proof. intros H Hc. unfold is_boundary. rewrite H, Hc. now rewrite orb_true_r. Qed.

Lemma boundary_end s : is_boundary s (List.length s) = true.
Proof.
  unfold is_boundary. destruct (nth_error s (List.length s)) eqn:H.
  - assert (nth_error s (List.length s) <> None) as H' by congruence.
    apply nth_error_Some in H'. lia.
  - apply Nat.eqb_refl.
Qed.

(** [advance] up to a given ASCII character *)
Lemma advance_until sc c :
  is_cont c = false -> c <> NUL -> sc_cur sc <= List.length (sc_src sc) ->
  let sc' := advance sc (fun x => negb (Ascii.eqb x c)) in
  (sc_cur sc' = List.length (sc_src sc) /\ ~ In c (skipn (sc_cur sc) (sc_src sc)))
  \/ (nth_error (sc_src sc) (sc_cur sc') = Some c /\ sc_cur sc' < List.length (sc_src sc)
      /\ ~ In c (firstn (sc_cur sc' - sc_cur sc) (skipn (sc_cur sc) (sc_src sc)))).
Proof.
  intros Hc Hn Hle. cbn. set (l := skipn (sc_cur sc) (sc_src sc)).
  set (p := fun x => negb (Ascii.eqb x c)).
  assert (Hall : ~ In c (firstn (span_len p l) l)).
  { intros Hin. pose proof (span_len_all p l) as Ha. rewrite Forall_forall in Ha.
    apply Ha in Hin. unfold p in Hin.
    assert (peek_byte c = c) as Hp by (now apply peek_byte_ascii).
    rewrite Hp, Ascii.eqb_refl in Hin. discriminate. }
  assert (Hl : List.length l = List.length (sc_src sc) - sc_cur sc) by apply skipn_length.
  pose proof (span_len_le p l) as Hsl.
  destruct (nth_error l (span_len p l)) as [b|] eqn:Hb.
  - right. pose proof (span_len_stop _ _ _ Hb) as Hs. unfold p in Hs.
    apply negb_false_iff, Ascii.eqb_eq in Hs.
    apply (proj1 (peek_byte_ascii _ _ Hc Hn)) in Hs. subst b.
    unfold l in Hb. rewrite nth_error_skipn' in Hb.
    assert (nth_error (sc_src sc) (sc_cur sc + span_len p l) <> None) as Hx
      by (fold l in Hb; rewrite Hb; discriminate).
    apply nth_error_Some in Hx. split; [exact Hb|]. split; [exact Hx|].
    now replace (sc_cur sc + span_len p l - sc_cur sc) with (span_len p l) by lia.
  - left. apply nth_error_None in Hb. split; [lia|].
    rewrite firstn_all2 in Hall by lia. exact Hall.
Qed.

Lemma advance_until_boundary sc c :
  is_cont c = false -> c <> NUL -> sc_cur sc <= List.length (sc_src sc) ->
  is_boundary (sc_src sc) (sc_cur (advance sc (fun x => negb (Ascii.eqb x c)))) = true.
Proof.
  intros Hc Hn Hle. destruct (advance_until sc c Hc Hn Hle) as [[H _]|[H _]].
  - rewrite H. apply boundary_end.
  - eapply boundary_ascii; eassumption.
Qed.

Lemma add_token_ok sc ty lit adv sc' t :
  add_token sc ty lit adv = Ok (sc', t) ->
  sc_start sc <= sc_cur sc <= List.length (sc_src sc)
  /\ is_boundary (sc_src sc) (sc_start sc) = true
  /\ is_boundary (sc_src sc) (sc_cur sc) = true
  /\ let text := firstn (sc_cur sc - sc_start sc) (skipn (sc_start sc) (sc_src sc)) in
     t = validate (mkTok ty text (if lit then Some text else None) (sc_line sc) (sc_startcol sc)
                         (sc_startcol sc + List.length text - 1) (sc_files sc))
     /\ sc' = mkSc (sc_src sc) (sc_start sc)
                   (if adv =? 0 then sc_startcol sc + List.length text else 1)
                   (sc_cur sc) (sc_line sc + adv) (sc_scanning sc) (sc_tagend sc) (sc_files sc).
Proof.
  unfold add_token. intros H. apply bind_ok in H as (text & Hs & H).
  apply slice_ok in Hs as (H1 & H2 & H3 & H4 & ->). injection H as <- <-.
  repeat split; try assumption. cbn zeta.
  destruct (adv =? 0) eqn:Ha; [|reflexivity].
  apply Nat.eqb_eq in Ha. subst. now rewrite Nat.add_0_r.
Qed.

Lemma emits_tag sc (P : nat -> token_type -> bool -> nat -> Prop) :
  sc_start sc <= sc_cur sc -> sc_cur sc <= List.length (sc_src sc) -> emits sc (add_tag sc) P.
Proof.
  intros Hs0 Hc0 sc' t H. left. unfold add_tag in H.
  apply bind_ok in H as (scx & Hx & H).
  assert (Hsc : sc_src scx = sc_src sc /\ sc_start sc <= sc_start scx <= sc_cur scx
                /\ sc_cur sc <= sc_cur scx <= List.length (sc_src sc)
                /\ sc_files scx = sc_files sc /\ sc_scanning scx = sc_scanning sc
                /\ sc_line scx = sc_line sc).
  { destruct (sc_tagend sc).
    - apply bind_ok in Hx as (s & Hs & Hx). injection Hx as <-. cbn.
      unfold advance_or_hang in Hs. destruct (is_at_end _); [discriminate|]. injection Hs as <-.
      pose proof (advance_cur_le sc (fun c => negb (c == "e")) Hc0) as L. cbn in *.
      repeat split; lia.
    - injection Hx as <-. repeat split; lia. }
  clear Hx. destruct Hsc as (E1 & E2 & E3 & E4 & E5 & E6).
  set (sc1 := bump (advance scx _) 1) in H.
  apply bind_ok in H as (text & Hsl & H). apply slice_ok in Hsl as (S1 & S2 & S3 & S4 & ->).
  apply bind_ok in H as ((ty, exp) & Hty & H).
  assert (Hty' : ty = TStartTag \/ ty = TEndTag).
  { destruct (contains (bs "tag") _); [injection Hty as <- <-; auto|].
    destruct (contains (bs "end") _); [injection Hty as <- <-; auto|discriminate]. }
  apply bind_ok in H as ((sc3, tok) & Hadd & H).
  apply add_token_ok in Hadd. cbn [sc_src sc_start sc_cur] in Hadd.
  destruct Hadd as (A1 & A2 & A3 & A4 & A5). cbn [sc_line sc_startcol sc_files sc_scanning sc_tagend] in A4, A5.
  injection H as <- <-.
  assert (Hsrc : sc_src sc1 = sc_src sc) by (cbn; exact E1).
  assert (Hcur : sc_cur scx < sc_cur sc1) by (cbn; lia).
  assert (Hst : sc_start sc1 = sc_start scx) by reflexivity.
  set (sc4 := advance sc3 _).
  assert (H3c : sc_cur sc3 = sc_cur sc1) by (rewrite A5; reflexivity).
  assert (H3s : sc_src sc3 = sc_src sc1) by (rewrite A5; reflexivity).
  pose proof (advance_until sc3 NL eq_refl ltac:(discriminate) ltac:(rewrite H3c, H3s; exact S2)) as Hadv.
  cbn zeta in Hadv. fold sc4 in Hadv.
  assert (H4src : sc_src sc4 = sc_src sc3) by reflexivity.
  assert (Hge : sc_cur sc3 <= sc_cur sc4) by (cbn; lia).
  assert (H4f : sc_files sc4 = sc_files sc)
    by (change (sc_files sc3 = sc_files sc); rewrite A5; cbn; exact E4).
  assert (H4g : sc_scanning sc4 = sc_scanning sc)
    by (change (sc_scanning sc3 = sc_scanning sc); rewrite A5; cbn; exact E5).
  assert (H4l : sc_line sc4 = S (sc_line sc))
    by (change (sc_line sc3 = S (sc_line sc)); rewrite A5; cbn; rewrite E6; lia).
  set (sc5 := if peek sc4 == NL then bump sc4 1 else sc4).
  assert (Hfin : sc_cur sc1 <= sc_cur sc5 <= List.length (sc_src sc)
                 /\ (is_boundary (sc_src sc) (sc_cur sc5) = true
                     \/ nth_error (sc_src sc) (sc_cur sc5 - 1) = Some NL)
                 /\ sc_src sc5 = sc_src sc /\ sc_files sc5 = sc_files sc
                 /\ sc_scanning sc5 = sc_scanning sc /\ sc_line sc5 = S (sc_line sc)).
  { unfold sc5. rewrite <- Hsrc, <- H3s.
    destruct (peek sc4 == NL) eqn:Hp.
    - apply Ascii.eqb_eq in Hp. unfold peek in Hp.
      apply peek_at_some in Hp; [|reflexivity|discriminate].
      assert (nth_error (sc_src sc4) (sc_cur sc4) <> None) as Hn by congruence.
      apply nth_error_Some in Hn. rewrite H4src in Hn, Hp.
      cbn [bump set_cur sc_cur sc_src sc_files sc_scanning].
      split; [lia|]. split; [right; replace (sc_cur sc4 + 1 - 1) with (sc_cur sc4) by lia; exact Hp|].
      split; [reflexivity|]. split; [assumption|]. split; assumption.
    - split; [destruct Hadv as [[Ha _]|[_ [Ha _]]]; lia|].
      split; [left; apply (advance_until_boundary sc3 NL); [reflexivity|discriminate|]; rewrite H3c, H3s; exact S2|].
      split; [reflexivity|]. split; [assumption|]. split; assumption. }
  clearbody sc5. destruct Hfin as (F1 & F2 & F3 & F4 & F5 & F6).
  assert (Hl : literal tok = Some (lexeme tok))
    by (rewrite A4; destruct Hty' as [-> | ->]; reflexivity).
  assert (Hv : is_tag tok /\ tfiles tok = sc_files sc
               /\ lexeme tok = firstn (sc_cur sc1 - sc_start sc1) (skipn (sc_start sc1) (sc_src sc1))).
  { rewrite A4. destruct Hty' as [-> | ->]; (split; [|split]);
      try (first [left; reflexivity | right; reflexivity]); try (cbn; exact E4); reflexivity. }
  destruct Hv as (V1 & V2 & V3).
  rewrite Hsrc in S2.
  repeat split; try assumption; try lia.
  assert (He : endcol tok = startcol tok + List.length (lexeme tok) - 1)
    by (rewrite A4; destruct Hty' as [-> | ->]; reflexivity).
  assert (Htl : tline tok = sc_line sc)
    by (rewrite A4; destruct Hty' as [-> | ->]; cbn; exact E6).
  exists (sc_start sc1), (sc_cur sc1). rewrite V3, Hsrc, Hst in *.
  repeat split; try lia.
Qed.
