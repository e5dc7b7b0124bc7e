(** * What an include directive takes in *)
From Verif Require Import Base World Location Token Scanner Meta Inline Block Asg Parser
  SpecScan SpecLevel SpecText SpecDocx SpecSelect ScanLemmas ScanFacts ScanMain ScanMain2 ScanStart LevelProofs DocGraph.
Local Open Scope char_scope.
Local Open Scope nat_scope.

(** ** The line of a token *)
Lemma yields_line src files ts sc : yields src files ts sc -> sc_line sc = 1 + line_ends ts.
Proof.
  induction 1 as [|ts sc t sc' Hy IH Hn]; [reflexivity|]. unfold line_ends in *. rewrite filter_app, app_length.
  apply next_some in Hn as [[Hlt [P | T]] | E].
  - destruct P as (adv & lit & P1 & P2 & P3 & P4 & P5 & P6 & P7 & P8 & P9 & P10 & P11 & P12 & P13 & P14 & P15 & _).
    rewrite P13, IH. destruct P15 as [_ P15]. destruct P15 as (A & B & C & D & _); [lia|]. cbn [filter].
    destruct (ttype t) eqn:X; cbn [ends_line List.length]; try (rewrite B by discriminate; cbn; lia); try congruence.
    destruct (A eq_refl) as [-> _]. cbn. lia.
  - destruct T as (T1 & T2 & T3 & T3' & T4 & T5 & T6 & T7 & _ & s & e & _ & _ & _ & _ & _ & _ & _ & L).
    rewrite L. cbn [bump set_cur restart sc_line]. rewrite IH. cbn [filter]. destruct T1 as [-> | ->]; cbn; lia.
  - destruct E as (_ & _ & -> & ->). cbn [sc_line]. rewrite IH. cbn. lia.
Qed.
Lemma next_line sc t sc' : next sc = Ok (Some t, sc') -> tline t = sc_line sc.
Proof.
  intros Hn. apply next_some in Hn as [[Hlt [P | T]] | E].
  - now destruct P as (adv & lit & P1 & P2 & P3 & P4 & P5 & P6 & P7 & P8 & P9 & _).
  - destruct T as (T1 & T2 & T3 & T3' & T4 & T5 & T6 & T7 & _ & s & e & _ & _ & _ & _ & _ & _ & L & _). exact L.
  - destruct E as (_ & _ & -> & _). reflexivity.
Qed.
Lemma token_line src files ts sc pre t post : yields src files ts sc -> ts = pre ++ t :: post -> tline t = 1 + line_ends pre.
Proof.
  intros H E. destruct (yields_split _ _ _ _ H _ _ _ E) as (sc1 & sc2 & Y1 & N & _).
  rewrite (next_line _ _ _ N). exact (yields_line _ _ _ _ Y1).
Qed.

(** ** Lines of tokens climb by one *)
Inductive climb : nat -> list token -> Prop :=
| climb_nil n : climb n []
| climb_cons n t r n' : tline t = n -> n' = n \/ n' = S n -> climb n' r -> climb n (t :: r).
Lemma climb_of pre ts : (forall a t b, pre ++ ts = a ++ t :: b -> tline t = 1 + line_ends a) -> climb (1 + line_ends pre) ts.
Proof.
  revert pre. induction ts as [|t r IH]; intros pre H; [constructor|].
  apply (climb_cons _ _ _ (1 + line_ends (pre ++ [t]))).
  - now apply (H pre t r).
  - unfold line_ends. rewrite filter_app, app_length. cbn. destruct (ends_line (ttype t)); cbn; lia.
  - apply IH. intros a x b E. apply (H a x b). now rewrite <- E, <- app_assoc.
Qed.
Lemma stream_climb src files : climb 1 (fst (scan_stream src files)).
Proof.
  destruct (stream_yields src files) as [sc Y]. apply (climb_of []). intros a t b E. exact (token_line _ _ _ _ _ _ _ Y E).
Qed.
Lemma climb_above n ts : climb n ts -> Forall (fun t => n <= tline t) ts.
Proof.
  induction 1 as [|n t r n' T N _ IH]; constructor; [lia|]. eapply Forall_impl; [|exact IH]. cbn. intros. lia.
Qed.

(** ** Reading the selection *)
Lemma decimal_clean x n : decimal x n -> x <> [] /\ Forall (fun c => is_digit c = true) x.
Proof.
  induction 1 as [c d D|s n c d _ [_ IH] D].
  - split; [discriminate|]. constructor; [|constructor]. apply digit_iff in D. apply D.
  - split; [destruct s; discriminate|]. apply Forall_app. split; [exact IH|]. constructor; [|constructor]. apply digit_iff in D. apply D.
Qed.
Lemma decimal_i32 x n : decimal x n -> (n <= 2147483647)%N -> parse_i32 x = Some (Z.of_N n).
Proof.
  intros D L. destruct (decimal_clean _ _ D) as [NE F]. apply decimal_val in D as [_ D]. unfold parse_i32.
  destruct x as [|c r]; [now elim NE|]. apply Forall_cons_iff in F as [C _].
  assert (Ascii.eqb c "-" = false) as -> by (destruct (Ascii.eqb_spec c "-") as [->|]; [discriminate|reflexivity]).
  assert (Ascii.eqb c "+" = false) as -> by (destruct (Ascii.eqb_spec c "+") as [->|]; [discriminate|reflexivity]).
  cbn [orb]. rewrite D. cbn [andb].
  assert ((-2147483648 <=? Z.of_N n)%Z = true) as -> by (apply Z.leb_le; lia).
  assert ((Z.of_N n <=? 2147483647)%Z = true) as -> by (apply Z.leb_le; lia). reflexivity.
Qed.
Lemma digit_dot c : is_digit c = true -> Ascii.eqb c "." = false.
Proof. intros H. destruct (Ascii.eqb_spec c "."); [subst; discriminate|reflexivity]. Qed.
Lemma split_digits x : forall acc, Forall (fun c => is_digit c = true) x -> split_dots acc x = [rev acc ++ x].
Proof.
  induction x as [|c r IH]; intros acc F; [cbn; now rewrite app_nil_r|]. apply Forall_cons_iff in F as [C F].
  destruct r as [|d r]; [reflexivity|]. cbn [split_dots]. rewrite (digit_dot _ C). cbn [andb].
  change (split_dots (c :: acc) (d :: r) = [rev acc ++ c :: d :: r]). rewrite IH by exact F. cbn [rev]. now rewrite <- app_assoc.
Qed.
Lemma split_two x y : forall acc, Forall (fun c => is_digit c = true) x -> split_dots acc (x ++ bs ".." ++ y) = (rev acc ++ x) :: split_dots [] y.
Proof.
  induction x as [|c r IH]; intros acc F.
  - cbn. now rewrite app_nil_r.
  - apply Forall_cons_iff in F as [C F].
    assert (forall z, split_dots acc (c :: z) = match z with [] => [rev (c :: acc)] | _ => split_dots (c :: acc) z end) as E.
    { intros [|d z]; [reflexivity|]. cbn [split_dots]. now rewrite (digit_dot _ C). }
    assert (forall z, z <> [] -> split_dots acc (c :: z) = split_dots (c :: acc) z) as E'.
    { intros z Z. rewrite E. destruct z; [now elim Z|reflexivity]. }
    rewrite <- app_comm_cons, E' by (destruct r; discriminate). rewrite IH by exact F. cbn [rev]. now rewrite <- app_assoc.
Qed.
Definition piece (i : pick) : list interval :=
  match i with
  | Just a => [iv_one (Z.of_nat a)]
  | Through a b => iv_range (Z.of_nat a) (Z.of_nat b + 1)
  | Onward a => [iv_one (Z.of_nat a); iv_one (-1)]
  end.
Lemma to_nat_N n : Z.of_nat (N.to_nat n) = Z.of_N n.
Proof. lia. Qed.
Lemma field_closed w i f last : writes i f -> closed i -> range_field w f last = Ok (piece i).
Proof.
  intros W C. destruct W as [x a D|x a y b D D'|x a D|x a D]; cbn in C; unfold below in *; try contradiction; unfold range_field, piece.
  - destruct (decimal_clean _ _ D) as [_ F]. rewrite split_digits by exact F. cbn [rev app]. rewrite (decimal_i32 _ _ D) by lia. now rewrite to_nat_N.
  - destruct (decimal_clean _ _ D) as [_ F]. destruct (decimal_clean _ _ D') as [_ F']. rewrite split_two, split_digits by assumption. cbn [rev app].
    rewrite (decimal_i32 _ _ D), (decimal_i32 _ _ D') by lia. rewrite !to_nat_N.
    destruct (Z.eqb_spec (Z.of_N b) (-1)); [lia|]. unfold succ_i32. destruct (Z.eqb_spec (Z.of_N b) 2147483647); [lia|]. reflexivity.
Qed.
Lemma field_onward w a f : writes (Onward a) f -> below a -> range_field w f true = Ok (piece (Onward a)).
Proof.
  intros W. inversion W as [| |x n D E|x n D E]; clear W; unfold below; intros L; subst; unfold range_field, piece; destruct (decimal_clean _ _ D) as [_ F].
  - change (bs "..") with (bs ".." ++ []). rewrite split_two by exact F. cbn [rev app split_dots parse_i32]. rewrite (decimal_i32 _ _ D) by lia. now rewrite to_nat_N.
  - change (bs "..-1") with (bs ".." ++ bs "-1"). rewrite split_two by exact F. cbn [rev app]. change (split_dots [] (bs "-1")) with [bs "-1"].
    cbv iota. change (parse_i32 (bs "-1")) with (Some (-1)%Z). cbv iota. change (-1 =? -1)%Z with true. cbv iota. rewrite (decimal_i32 _ _ D) by lia. now rewrite to_nat_N.
Qed.
Definition sep (c : ascii) : bool := memc c [","; ";"].
Lemma writes_clean i f : writes i f -> forall c, In c f -> sep c = false.
Proof.
  assert (forall x n, decimal x n -> forall c, In c x -> sep c = false) as K.
  { intros x n D c I. destruct (decimal_clean _ _ D) as [_ F]. rewrite Forall_forall in F. specialize (F c I). unfold sep, memc. cbn.
    destruct (Ascii.eqb_spec c ","); [subst; discriminate|]. destruct (Ascii.eqb_spec c ";"); [subst; discriminate|]. reflexivity. }
  assert (forall x n s, decimal x n -> forallb (fun c => negb (sep c)) s = true -> forall c, In c (x ++ s) -> sep c = false) as K2.
  { intros x n s D F c I. apply in_app_or in I as [I|I]; [eapply K; eassumption|]. rewrite forallb_forall in F. specialize (F c I). now destruct (sep c). }
  intros W c I. destruct W as [x a D|x a y b D D'|x a D|x a D]; [eapply K; eassumption| |eapply K2; [exact D| |exact I]; reflexivity|eapply K2; [exact D| |exact I]; reflexivity].
  rewrite app_assoc in I. apply in_app_or in I as [I|I]; [eapply K2; [exact D| |exact I]; reflexivity|eapply K; eassumption].
Qed.
Lemma split_sep f c v : (forall x, In x f -> sep x = false) -> sep c = true -> split_on sep (f ++ c :: v) = f :: split_on sep v.
Proof.
  intros F C. induction f as [|a f IH]; cbn [app split_on]; [now rewrite C|]. rewrite (F a (or_introl eq_refl)). rewrite IH; [reflexivity|]. intros x X. apply F. now right.
Qed.
Lemma chooses_fields l v : chooses l v -> Forall2 writes l (split_on sep v).
Proof.
  induction 1 as [i f W|i f c l v W C _ IH].
  - rewrite split_none by (intros x X; eapply writes_clean; eassumption). constructor; [exact W|constructor].
  - rewrite split_sep; [constructor; assumption|intros x X; eapply writes_clean; eassumption|destruct C as [-> | ->]; reflexivity].
Qed.
Lemma fields_closed w l fs : Forall2 writes l fs -> Forall closed l -> range_fields w fs = Ok (List.concat (map piece l)).
Proof.
  induction 1 as [|i f l fs W _ IH]; intros C; [reflexivity|]. apply Forall_cons_iff in C as [C C']. cbn [range_fields map List.concat].
  rewrite (field_closed w i f _ W C). cbn [bind]. rewrite (IH C'). reflexivity.
Qed.
Lemma fields_onward w l a fs : Forall2 writes (l ++ [Onward a]) fs -> Forall closed l -> below a ->
  range_fields w fs = Ok (List.concat (map piece l) ++ piece (Onward a)).
Proof.
  revert fs. induction l as [|i l IH]; intros fs F C B.
  - cbn in F. inversion F as [|? f ? r W R]; subst. inversion R; subst. cbn [range_fields]. rewrite (field_onward w a f W B). reflexivity.
  - cbn in F. inversion F as [|? f ? r W R]; subst. apply Forall_cons_iff in C as [C C']. cbn [range_fields].
    rewrite (field_closed w i f _ W C). cbn [bind]. rewrite (IH _ R C' B). cbn [bind map List.concat]. now rewrite app_assoc.
Qed.

(** ** The lines kept *)
Lemma contains_app a b z : iv_contains (a ++ b) z = iv_contains a z || iv_contains b z.
Proof. unfold iv_contains. apply existsb_app. Qed.
Lemma contains_piece i n : closed i -> iv_contains (piece i) (Z.of_nat n) = picks i n.
Proof.
  destruct i as [a|a b|a]; cbn [closed piece picks]; intros C; [| |contradiction].
  - cbn. rewrite orb_false_r. destruct (Nat.eqb_spec n a); destruct (Z.leb_spec (Z.of_nat a) (Z.of_nat n)); destruct (Z.ltb_spec (Z.of_nat n) (Z.of_nat a + 1)); cbn; try reflexivity; lia.
  - unfold iv_range. destruct (Z.ltb_spec (Z.of_nat a) (Z.of_nat b + 1)); cbn.
    + rewrite orb_false_r. destruct (Nat.leb_spec a n); destruct (Nat.leb_spec n b); destruct (Z.leb_spec (Z.of_nat a) (Z.of_nat n)); destruct (Z.ltb_spec (Z.of_nat n) (Z.of_nat b + 1)); cbn; try reflexivity; lia.
    + destruct (Nat.leb_spec a n); destruct (Nat.leb_spec n b); cbn; try reflexivity; lia.
Qed.
Lemma contains_pieces l n : Forall closed l -> iv_contains (List.concat (map piece l)) (Z.of_nat n) = wants l n.
Proof.
  induction 1 as [|i l C _ IH]; [reflexivity|]. cbn [map List.concat]. rewrite contains_app, contains_piece by exact C. cbn [wants existsb]. now rewrite IH.
Qed.
Ltac fed := match goal with |- bind ?m _ = _ => destruct m end; cbn [bind]; try reflexivity.
Section Loop.
  Variable rec : token -> pstate -> result pstate.
  Variable adoc : bool.
  Variable tags : list bytes.
  Notation loop lines to_end := (include_loop rec (mkInc lines to_end tags adoc)).

  Lemma loop_eq s st t r p : include_loop rec s st (t :: r) p =
    (let* (keep, st') := include_step s st t in
     if (keep : bool) then
       let* p := if inc_adoc s then let* p := rec t p in Ok (set_last (ttype t) p)
                 else parse_text t (set_last (if tt_eqb (ttype t) TEof then TEof else TText) p) in
       include_loop rec s st' r p
     else include_loop rec s st' r p).
  Proof. reflexivity. Qed.
  (** the selection given once more in the specification is not looked at by the loop *)
  Lemma loop_all l e l2 e2 cur ts : forall p, loop l e ([], cur) ts p = loop l2 e2 ([], cur) ts p.
  Proof.
    revert cur. induction ts as [|t r IH]; intros cur p; [reflexivity|]. rewrite !loop_eq. unfold include_step, include_lines_step.
    cbn [fst snd negb inc_tags inc_adoc inc_to_end]. destruct (include_tags_step tags cur t) as [[k c']| | | |]; cbn [bind]; try reflexivity.
    destruct k; [|apply IH]. fed; auto.
  Qed.
  Lemma loop_closed l cur ts : l <> [] -> forall p, loop l false (l, cur) ts p = loop [] false ([], cur) (filter (fun t => iv_contains l (Z.of_nat (tline t))) ts) p.
  Proof.
    intros NE. revert cur. induction ts as [|t r IH]; intros cur p; [reflexivity|]. rewrite loop_eq. unfold include_step, include_lines_step at 1. cbn [fst snd filter inc_tags inc_adoc inc_to_end].
    destruct l as [|x l]; [now elim NE|]. set (L := x :: l) in *. destruct (iv_contains L (Z.of_nat (tline t))) eqn:C; cbn [negb andb bind]; [|apply IH].
    rewrite loop_eq. unfold include_step, include_lines_step. cbn [fst snd negb inc_tags inc_adoc inc_to_end].
    destruct (include_tags_step tags cur t) as [[k c']| | | |]; cbn [bind]; try reflexivity.
    destruct k; [|apply IH]. fed; auto.
  Qed.
  Lemma last_opt_snoc {A} (l : list A) x : last_opt (l ++ [x]) = Some x.
  Proof. unfold last_opt. rewrite rev_app_distr. reflexivity. Qed.
  Lemma filter_all {A} (f : A -> bool) l : Forall (fun x => f x = true) l -> filter f l = l.
  Proof. induction 1 as [|x l H _ IH]; cbn; [reflexivity|]. now rewrite H, IH. Qed.
  Lemma loop_onward l a cur ts n : climb n ts -> n <= a -> forall p,
    loop (l ++ [iv_one (Z.of_nat a)]) true (l ++ [iv_one (Z.of_nat a)], cur) ts p
    = loop [] false ([], cur) (filter (fun t => iv_contains l (Z.of_nat (tline t)) || Nat.leb a (tline t)) ts) p.
  Proof.
    intros C. revert cur. set (L := l ++ [iv_one (Z.of_nat a)]). assert (L <> []) as NE by (destruct l; discriminate).
    assert (iv_last L = Some (Z.of_nat a)) as LA. { unfold iv_last, L. rewrite last_opt_snoc. cbn. f_equal. lia. }
    assert (forall n, n <= a -> iv_contains L (Z.of_nat n) = iv_contains l (Z.of_nat n) || Nat.leb a n) as CL.
    { intros m M. unfold L. rewrite contains_app. f_equal. cbn. rewrite orb_false_r.
      destruct (Nat.leb_spec a m); destruct (Z.leb_spec (Z.of_nat a) (Z.of_nat m)); destruct (Z.ltb_spec (Z.of_nat m) (Z.of_nat a + 1)); cbn; try reflexivity; lia. }
    clearbody L. induction C as [n|n t r n' T N C IH]; intros cur LE p; [reflexivity|].
    rewrite loop_eq. unfold include_step, include_lines_step at 1. cbn [fst snd filter inc_tags inc_adoc inc_to_end].
    destruct L as [|x L0]; [now elim NE|]. set (L := x :: L0) in *. rewrite LA, (CL (tline t)) by lia.
    destruct (iv_contains l (Z.of_nat (tline t)) || Nat.leb a (tline t)) eqn:K; cbn [negb andb bind].
    2: { apply IH. apply orb_false_iff in K as [_ K]. apply Nat.leb_gt in K. lia. }
    rewrite loop_eq. unfold include_step, include_lines_step. cbn [fst snd negb inc_tags inc_adoc inc_to_end].
    destruct (Z.leb_spec (Z.of_nat a) (Z.of_nat (tline t))) as [GE|LT].
    - assert (filter (fun u => iv_contains l (Z.of_nat (tline u)) || Nat.leb a (tline u)) r = r) as ->.
      { apply filter_all. pose proof (climb_above _ _ C) as A. eapply Forall_impl; [|exact A]. cbn. intros u U.
        assert (Nat.leb a (tline u) = true) as -> by (apply Nat.leb_le; lia). apply orb_true_r. }
      cbn [negb]. destruct (include_tags_step tags cur t) as [[k c']| | | |]; cbn [bind]; try reflexivity.
      destruct k; [|apply loop_all]. fed; apply loop_all.
    - cbn [negb]. destruct (include_tags_step tags cur t) as [[k c']| | | |]; cbn [bind]; try reflexivity.
      assert (n' <= a) by lia. destruct k; [|now apply IH]. fed; auto.
  Qed.
  Lemma wants_app l m n : wants (l ++ m) n = wants l n || wants m n.
  Proof. unfold wants. apply existsb_app. Qed.
  Lemma filter_eq {A} (f g : A -> bool) l : (forall x, f x = g x) -> filter f l = filter g l.
  Proof. intros H. induction l as [|x l IH]; cbn; [reflexivity|]. now rewrite H, IH. Qed.
End Loop.

(** what the directive asks for *)
Lemma iv_pop_onward l a : iv_pop (l ++ [iv_one (Z.of_nat a); iv_one (-1)]) = l ++ [iv_one (Z.of_nat a)].
Proof.
  unfold iv_pop. replace (l ++ [iv_one (Z.of_nat a); iv_one (-1)]) with ((l ++ [iv_one (Z.of_nat a)]) ++ [iv_one (-1)]) by now rewrite <- app_assoc.
  assert (forall A (x : list A) y, pop_last (x ++ [y]) = Some (x, y)) as P.
  { intros A x y. unfold pop_last. rewrite rev_app_distr. cbn. now rewrite rev_involutive. }
  rewrite P. cbn. now rewrite app_nil_r.
Qed.

(** ** Tags *)
Lemma tag_slice x g t : List.length x = 5 -> lexeme t = x ++ g ++ bs "[]" -> starts_char g -> is_tag t -> token_tag t = Ok (Some g).
Proof.
  intros X L S T. unfold token_tag. assert (List.length (lexeme t) = 5 + List.length g + 2) as LE by (rewrite L, !app_length; cbn; lia).
  assert (slice (E := error) (lexeme t) 5 (List.length (lexeme t) - 2) = Ok g) as E.
  { unfold slice. rewrite LE. replace (5 + List.length g + 2 - 2) with (5 + List.length g) by lia.
    assert ((5 <=? 5 + List.length g) = true) as -> by (apply Nat.leb_le; lia). assert ((5 + List.length g <=? 5 + List.length g + 2) = true) as -> by (apply Nat.leb_le; lia).
    assert (is_boundary (lexeme t) 5 = true) as ->.
    { unfold is_boundary. rewrite L, nth_error_app2 by lia. rewrite X. cbn. destruct g as [|c g]; [reflexivity|]. cbn. cbn in S. now rewrite S. }
    assert (is_boundary (lexeme t) (5 + List.length g) = true) as ->.
    { unfold is_boundary. rewrite L, nth_error_app2 by lia. rewrite X, nth_error_app2 by lia. replace (5 + List.length g - 5 - List.length g) with 0 by lia. reflexivity. }
    cbn [andb]. rewrite L, skipn_app, skipn_all2 by lia. rewrite X, Nat.sub_diag. cbn [skipn app].
    replace (5 + List.length g - 5) with (List.length g) by lia. now rewrite firstn_app, firstn_all, Nat.sub_diag, app_nil_r. }
  rewrite LE in E. rewrite LE. destruct T as [-> | ->]; cbn [Nat.ltb]; (destruct (_ <? 2) eqn:L2; [apply Nat.ltb_lt in L2; lia|]); rewrite E; reflexivity.
Qed.
Lemma opens_fun g h t : opens_tag g t -> opens_tag h t -> g = h.
Proof. intros [_ A] [_ B]. rewrite A in B. apply app_inv_head in B. apply app_inv_tail in B. exact B. Qed.
Lemma closes_fun g h t : closes_tag g t -> closes_tag h t -> g = h.
Proof. intros [_ A] [_ B]. rewrite A in B. apply app_inv_head in B. apply app_inv_tail in B. exact B. Qed.
Lemma inside_snoc g pre t : inside g (pre ++ [t]) <-> opens_tag g t \/ inside g pre /\ ~ closes_tag g t.
Proof.
  split.
  - intros (a & s & b & E & O & F). destruct b as [|x b] using rev_ind.
    + apply app_inj_tail in E as [_ ->]. now left.
    + clear IHb. right. rewrite app_comm_cons, app_assoc in E. apply app_inj_tail in E as [-> ->]. apply Forall_app in F as [F G]. apply Forall_inv in G.
      split; [|exact G]. exists a, s, b. auto.
  - intros [O|[(a & s & b & -> & O & F) N]].
    + exists pre, t, []. split; [reflexivity|]. split; [exact O|constructor].
    + exists a, s, (b ++ [t]). split; [now rewrite <- app_assoc|]. split; [exact O|]. apply Forall_app. split; [exact F|]. constructor; [exact N|constructor].
Qed.
Section Tags.
  Variable rec : token -> pstate -> result pstate.
  Variable adoc : bool.
  Variable tags : list bytes.
  Hypothesis some : tags <> [].
  (** the state of the loop after [pre] *)
  Definition current (pre : list token) (cur : option bytes) : Prop :=
    match cur with
    | Some g => In g tags /\ inside g pre /\ forall h, In h tags -> inside h pre -> h = g
    | None => ~ within tags pre
    end.
  Lemma loop_tags ts : forall pre cur ts' p, well_formed ts -> (forall a t b g, ts = a ++ t :: b -> In g tags ->
      (opens_tag g t -> ~ within tags (pre ++ a)) /\ (closes_tag g t -> within tags (pre ++ a) -> inside g (pre ++ a))) ->
    current pre cur -> tagged tags pre ts ts' ->
    include_loop rec (mkInc [] false tags adoc) ([], cur) ts p = feed rec adoc ts' p.
  Proof.
    induction ts as [|t r IH]; intros pre cur ts' p WF NN C T; [inversion T; subst; reflexivity|].
    apply Forall_cons_iff in WF as [[W1 W2] WF].
    assert (forall a x b g, r = a ++ x :: b -> In g tags -> (opens_tag g x -> ~ within tags ((pre ++ [t]) ++ a)) /\ (closes_tag g x -> within tags ((pre ++ [t]) ++ a) -> inside g ((pre ++ [t]) ++ a))) as NN'.
    { intros a x b g -> G. rewrite <- app_assoc. apply (NN (t :: a) x b g eq_refl G). }
    specialize (NN [] t r). rewrite app_nil_r in NN. pose proof (fun g => NN g eq_refl) as N0. clear NN.
    rewrite loop_eq. unfold include_step, include_lines_step. cbn [fst snd negb inc_tags inc_adoc inc_to_end]. unfold include_tags_step.
    destruct tags as [|g0 tags0] eqn:TG; [now elim some|]. rewrite <- TG in *.
    (* the three ways to go on *)
    assert (forall cur', marks tags t -> current (pre ++ [t]) cur' -> include_loop rec (mkInc [] false tags adoc) ([], cur') r p = feed rec adoc ts' p) as Kmark.
    { intros cur' M C'. inversion T; subst ts'; try contradiction; eapply IH; eauto. }
    assert (~ marks tags t -> current (pre ++ [t]) cur) as Ksame.
    { intros M. destruct cur as [g|].
      - destruct C as (G & I & U). split; [exact G|]. split; [apply inside_snoc; right; split; [exact I|]; intros X; apply M; exists g; auto|].
        intros h Hh X. apply inside_snoc in X as [X|[X _]]; [elim M; exists h; auto|]. now apply U.
      - intros (g & G & X). apply inside_snoc in X as [X|[X _]]; [elim M; exists g; auto|]. apply C. exists g. auto. }
    assert (~ marks tags t -> (let* (keep, st') := Ok (match cur with Some _ => true | None => false end, ([] : list interval, cur)) in
       if (keep : bool) then
         let* p := if adoc then let* p := rec t p in Ok (set_last (ttype t) p)
                   else parse_text t (set_last (if tt_eqb (ttype t) TEof then TEof else TText) p) in
         include_loop rec (mkInc [] false tags adoc) st' r p
       else include_loop rec (mkInc [] false tags adoc) st' r p) = feed rec adoc ts' p) as Kother.
    { intros M. specialize (Ksame M). cbn [bind]. destruct cur as [g|].
      - destruct C as (G & I & U). inversion T as [|? ? ? r' W _ T'|? ? ? r' W T'|? ? ? r' W T']; subst; try contradiction.
        + cbn [feed]. fed. eapply IH; eauto.
        + elim W. exists g. auto.
      - inversion T as [|? ? ? r' W _ T'|? ? ? r' W T'|? ? ? r' W T']; subst; try contradiction. eapply IH; eauto. }
    destruct (ttype t) eqn:TY;
      try (assert (token_tag t = Ok None) as -> by (unfold token_tag; now rewrite TY); cbn [bind]; apply Kother;
           intros (g & _ & [[X _]|[X _]]); rewrite TY in X; discriminate).
    - (* start *)
      destruct (W1 eq_refl) as (g & O & S). rewrite (tag_slice (bs "tag::") g t eq_refl (proj2 O) S (or_introl TY)). cbn [bind].
      destruct (memb g tags) eqn:Mg; cbn [bind].
      + apply memb_In in Mg. apply Kmark; [exists g; auto|]. split; [exact Mg|]. split; [apply inside_snoc; now left|].
        intros h Hh X. apply inside_snoc in X as [X|[X _]]; [eapply opens_fun; eassumption|]. elim (proj1 (N0 g Mg) O). exists h. auto.
      + apply Kother. intros (h & Hh & [X|[X _]]); [|rewrite TY in X; discriminate]. rewrite (opens_fun _ _ _ X O) in Hh. apply memb_In in Hh. congruence.
    - (* end *)
      destruct (W2 eq_refl) as (g & O & S). rewrite (tag_slice (bs "end::") g t eq_refl (proj2 O) S (or_intror TY)). cbn [bind].
      destruct cur as [c|].
      + destruct C as (G & I & U). destruct (beqb c g) eqn:Q; cbn [bind].
        * apply beqb_eq in Q. subst g. apply Kmark; [exists c; auto|]. intros (h & Hh & X). apply inside_snoc in X as [[X _]|[X Y]]; [rewrite TY in X; discriminate|].
          rewrite (U h Hh X) in Y. contradiction.
        * assert (~ marks tags t) as M; [|exact (Kother M)].
          intros (h & Hh & [[X _]|X]); [rewrite TY in X; discriminate|]. pose proof (closes_fun _ _ _ X O) as ->.
          assert (inside g pre) as J by (apply (proj2 (N0 g Hh) O); exists c; auto). rewrite (U g Hh J), beqb_refl in Q. discriminate.
      + cbn [bind]. destruct (memb g tags) eqn:Mg.
        * apply memb_In in Mg. apply (Kmark None); [exists g; auto|]. intros (h & Hh & X). apply inside_snoc in X as [[X _]|[X Y]]; [rewrite TY in X; discriminate|]. apply C. exists h. auto.
        * assert (~ marks tags t) as M; [|exact (Kother M)]. intros (h & Hh & [[X _]|X]); [rewrite TY in X; discriminate|].
          rewrite (closes_fun _ _ _ X O) in Hh. apply memb_In in Hh. congruence.
  Qed.
End Tags.
Lemma loop_feed rec adoc ts : forall p, include_loop rec (mkInc [] false [] adoc) ([], None) ts p = feed rec adoc ts p.
Proof.
  induction ts as [|t r IH]; intros p; [reflexivity|]. rewrite loop_eq. unfold include_step, include_lines_step, include_tags_step.
  cbn [fst snd negb inc_tags inc_adoc inc_to_end bind feed]. fed. apply IH.
Qed.

(** ** The directive *)
Lemma split_join (gs : list bytes) : gs <> [] -> Forall (fun g => ~ In ";" g) gs -> split_on (fun c => Ascii.eqb c ";") (join (bs ";") gs) = gs.
Proof.
  intros NE F. induction gs as [|g gs IH]; [now elim NE|]. apply Forall_cons_iff in F as [G F].
  assert (forall x, In x g -> Ascii.eqb x ";" = false) as Q. { intros x X. apply Ascii.eqb_neq. intros ->. contradiction. }
  destruct gs as [|h gs]; [apply split_none; exact Q|]. change (join (bs ";") (g :: h :: gs)) with (g ++ ";" :: join (bs ";") (h :: gs)).
  assert (split_on (fun c => Ascii.eqb c ";") (join (bs ";") (h :: gs)) = h :: gs) as E by (apply IH; [discriminate|exact F]).
  revert E. generalize (join (bs ";") (h :: gs)). intros J E.
  clear - Q E. induction g as [|a g IH]; cbn [app split_on]; [change (Ascii.eqb ";" ";") with true; cbv iota; now rewrite E|]. rewrite (Q a (or_introl eq_refl)), IH; [reflexivity|]. intros x X. apply Q. now right.
Qed.
Lemma asks_tags m tags : asks m tags ->
  (match mget (bs "tag") (m_attrs m) with Some v => [v] | None => [] end) ++
  (match mget (bs "tags") (m_attrs m) with Some v => split_on (fun c => Ascii.eqb c ";") v | None => [] end) = tags.
Proof.
  intros (a & b & -> & A & B). destruct (mget (bs "tag") _); subst a; destruct (mget (bs "tags") _); try subst b; try reflexivity;
  destruct B as (B1 & -> & B2); now rewrite split_join.
Qed.
Lemma last_not_end l : Forall closed l -> iv_last (List.concat (map piece l)) <> Some (-1)%Z.
Proof.
  intros C. unfold iv_last. assert (Forall (fun iv => (0 < snd iv)%Z) (List.concat (map piece l))) as F.
  { induction C as [|i l C _ IH]; cbn; [constructor|]. apply Forall_app. split; [|exact IH]. destruct i as [a|a b|a]; cbn in *; [| |contradiction].
    - constructor; [cbn; lia|constructor].
    - unfold iv_range. destruct (Z.ltb_spec (Z.of_nat a) (Z.of_nat b + 1)); constructor; [cbn; lia|constructor]. }
  revert F. generalize (List.concat (map piece l)). intros L F. destruct L as [|x L] using rev_ind; [discriminate|]. rewrite last_opt_snoc.
  apply Forall_app in F as [_ F]. apply Forall_inv in F. intros E. injection E. lia.
Qed.
Lemma spec_loop w rec target m ts1 ts2 content files s : include_spec_of w target (Some m) = Ok s -> by_lines m (fst (scan_stream content files)) ts1 -> by_tags m ts1 ts2 ->
  forall p, include_loop rec s (inc_lines s, None) (fst (scan_stream content files)) p = feed rec (is_adoc target) ts2 p.
Proof.
  intros S L (tags & A & T) p. unfold include_spec_of in S. pose proof (stream_climb content files) as CL. revert CL L. generalize (fst (scan_stream content files)). intros ts CL L.
  assert (forall q, include_loop rec (mkInc [] false tags (ends_adoc target)) ([], None) ts1 q = feed rec (is_adoc target) ts2 q) as K.
  { intros q. destruct T as [[-> ->]|(NE & WF & NN & TG)]; [apply loop_feed|]. eapply loop_tags; [exact NE|exact WF| | |exact TG].
    - intros a t b g E G. cbn [app]. exact (NN a t b g E G).
    - intros (g & _ & a & x & b & E & _). destruct a; discriminate. }
  rewrite (asks_tags _ _ A) in S. unfold by_lines in L. destruct (mget (bs "lines") (m_attrs m)) as [v|].
  - destruct L as (l & CH & U & ->). apply chooses_fields in CH. unfold extract_page_ranges in S. fold sep in S. change (fun c => memc c [","; ";"]) with sep in S.
    destruct U as [[C (line & W)]|(l' & a & -> & C & B & NZ)].
    + rewrite (fields_closed w _ _ CH C) in S. cbn [bind] in S. pose proof (last_not_end _ C) as NL.
      assert (s = mkInc (List.concat (map piece l)) false tags (ends_adoc target)) as ->.
      { destruct (iv_last (List.concat (map piece l))) as [z|]; [destruct (Z.eqb_spec z (-1)); [congruence|]|]; cbn [bind] in S; congruence. }
      cbn [inc_lines]. rewrite loop_closed.
      * rewrite <- K. f_equal. apply filter_eq. intros t. now apply contains_pieces.
      * intros E. rewrite <- contains_pieces in W by exact C. rewrite E in W. discriminate.
    + rewrite (fields_onward w _ _ _ CH C B) in S. cbn [bind piece] in S.
      assert (iv_last (List.concat (map piece l') ++ [iv_one (Z.of_nat a); iv_one (-1)]) = Some (-1)%Z) as E.
      { unfold iv_last. replace (List.concat (map piece l') ++ [iv_one (Z.of_nat a); iv_one (-1)]) with ((List.concat (map piece l') ++ [iv_one (Z.of_nat a)]) ++ [iv_one (-1)]) by now rewrite <- app_assoc.
        rewrite last_opt_snoc. reflexivity. }
      rewrite E in S. change (-1 =? -1)%Z with true in S. cbv iota in S. cbn [bind] in S. rewrite iv_pop_onward in S.
      assert (s = mkInc (List.concat (map piece l') ++ [iv_one (Z.of_nat a)]) true tags (ends_adoc target)) as -> by congruence. cbn [inc_lines].
      rewrite (loop_onward rec _ _ _ a _ _ 1) by (assumption || lia). rewrite <- K. f_equal. apply filter_eq. intros t. rewrite contains_pieces by exact C.
      rewrite wants_app. cbn. now rewrite orb_false_r.
  - subst ts1. cbn [bind] in S. assert (s = mkInc [] false tags (ends_adoc target)) as -> by congruence. apply K.
Qed.
Lemma spec_exists w target m : (exists ts ts', by_lines m ts ts') -> exists s, include_spec_of w target (Some m) = Ok s.
Proof.
  intros (ts & ts' & L). unfold include_spec_of, by_lines in *. destruct (mget (bs "lines") (m_attrs m)) as [v|]; [|cbn [bind]; eauto].
  destruct L as (l & CH & U & _). apply chooses_fields in CH. unfold extract_page_ranges. change (fun c => memc c [","; ";"]) with sep.
  destruct U as [[C _]|(l' & a & -> & C & B & NZ)].
  - rewrite (fields_closed w _ _ CH C). cbn [bind]. destruct (iv_last _) as [z|]; [destruct (z =? -1)%Z|]; cbn [bind]; eauto.
  - rewrite (fields_onward w _ _ _ CH C B). cbn [bind]. destruct (iv_last _) as [z|]; [destruct (z =? -1)%Z|]; cbn [bind]; eauto.
Qed.
Lemma include_takes w rec t p target m content ts1 ts2 : names w t p target m content ->
  by_lines m (fst (scan_stream content (p_files p ++ [target]))) ts1 -> by_tags m ts1 ts2 ->
  parse_include w rec t p = take_in rec (is_adoc target) target ts2 (snd (scan_stream content (p_files p ++ [target]))) p.
Proof.
  intros (E & NL & path & R & C) L T. unfold parse_include. rewrite E. cbn [bind]. rewrite NL. cbn [bind].
  destruct (spec_exists w target m) as [s S]; [eauto|]. rewrite S. cbn [bind]. unfold resolve_target. change (resolve_path (p_origin p) (p_files p) target) with (SpecPath.located (p_origin p) (p_files p) target). rewrite R. cbn [bind]. rewrite C.
  unfold take_in. assert (p_files (set_files (p_files p ++ [target]) p) = p_files p ++ [target]) as F by (destruct p; reflexivity).
  assert (p_bstack (set_files (p_files p ++ [target]) p) = p_bstack p) as F' by (destruct p; reflexivity). rewrite F.
  destruct (scan_stream content (p_files p ++ [target])) as [ts e] eqn:SS.
  pose proof (spec_loop w rec target m ts1 ts2 content (p_files p ++ [target]) s S) as K. rewrite SS in K. cbn [fst] in K. rewrite (K L T). reflexivity.
Qed.
Lemma include_lines w rec t p target m content v l : names w t p target m content ->
  mget (bs "lines") (m_attrs m) = Some v -> mget (bs "tag") (m_attrs m) = None -> mget (bs "tags") (m_attrs m) = None ->
  chooses l v -> usable l ->
  parse_include w rec t p
  = take_in rec (is_adoc target) target (filter (fun t => wants l (tline t)) (fst (scan_stream content (p_files p ++ [target]))))
            (snd (scan_stream content (p_files p ++ [target]))) p.
Proof.
  intros N L T1 T2 C U. eapply include_takes; [exact N|unfold by_lines; rewrite L; exists l; eauto|].
  exists []. split; [exists [], []; now rewrite T1, T2|]. left. auto.
Qed.
Lemma include_tags w rec t p target m content tags ts : names w t p target m content ->
  mget (bs "lines") (m_attrs m) = None -> asks m tags -> tags <> [] ->
  well_formed (fst (scan_stream content (p_files p ++ [target]))) ->
  not_nested tags (fst (scan_stream content (p_files p ++ [target]))) ->
  tagged tags [] (fst (scan_stream content (p_files p ++ [target]))) ts ->
  parse_include w rec t p = take_in rec (is_adoc target) target ts (snd (scan_stream content (p_files p ++ [target]))) p.
Proof.
  intros N L A NE WF NN TG. eapply include_takes; [exact N|unfold by_lines; rewrite L; reflexivity|].
  exists tags. split; [exact A|]. right. auto.
Qed.
