(** * Lemmas: the docx output of graphs *)
From Coq Require Import DecimalString DecimalFacts DecimalNat.
From Verif Require Import Base World Location Token Meta Inline Block Asg Docx SpecScan SpecText SpecDocx ScanLemmas TreeInd DocxProofs SpecPage.
Local Open Scope char_scope.
Local Open Scope nat_scope.
Local Arguments bs : simpl never.
Local Arguments dec : simpl never.

(** ** Numerals *)
Definition cons_digit (n : nat) (u : Decimal.uint) : Decimal.uint :=
  match n with
  | 0 => Decimal.D0 u | 1 => Decimal.D1 u | 2 => Decimal.D2 u | 3 => Decimal.D3 u | 4 => Decimal.D4 u
  | 5 => Decimal.D5 u | 6 => Decimal.D6 u | 7 => Decimal.D7 u | 8 => Decimal.D8 u | _ => Decimal.D9 u
  end.
Definition digits_of (l : list nat) : Decimal.uint := fold_right cons_digit Decimal.Nil l.
Lemma ten d : d < 10 -> d = 0 \/ d = 1 \/ d = 2 \/ d = 3 \/ d = 4 \/ d = 5 \/ d = 6 \/ d = 7 \/ d = 8 \/ d = 9.
Proof. lia. Qed.
Lemma digits_string l : Forall (fun d => d < 10) l -> bs (NilEmpty.string_of_uint (digits_of l)) = map (fun d => chr (48 + d)) l.
Proof.
  induction 1 as [|d l H F IH]; [reflexivity|]. cbn [digits_of fold_right map]. fold (digits_of l).
  apply ten in H. repeat (destruct H as [->|H]; [change (chr (48 + ?k)) with (chr (48 + k)); cbn [cons_digit NilEmpty.string_of_uint]; rewrite <- IH; reflexivity|]).
  subst d. cbn [cons_digit NilEmpty.string_of_uint]. rewrite <- IH. reflexivity.
Qed.
Lemma digits_acc l : Forall (fun d => d < 10) l -> forall acc, Nat.of_uint_acc (digits_of l) acc = fold_left (fun n d => 10 * n + d) l acc.
Proof.
  induction 1 as [|d l H F IH]; intros acc; [reflexivity|]. cbn [digits_of fold_right fold_left]. fold (digits_of l). rewrite <- IH.
  apply ten in H. repeat (destruct H as [->|H]; [cbn [cons_digit Nat.of_uint_acc]; f_equal; rewrite Nat.tail_mul_spec; lia|]).
  subst d. cbn [cons_digit Nat.of_uint_acc]. f_equal. rewrite Nat.tail_mul_spec. lia.
Qed.
(** the digits of a number *)
Lemma dec_digits n : exists l, dec n = map (fun d => chr (48 + d)) l /\ Forall (fun d => d < 10) l /\ fold_left (fun n d => 10 * n + d) l 0 = n
  /\ (l = [n] \/ exists d r, l = d :: r /\ 0 < d).
Proof.
  unfold dec. assert (forall f n, n < f -> exists l, dec_fuel f n = map (fun d => chr (48 + d)) l /\ Forall (fun d => d < 10) l
    /\ fold_left (fun n d => 10 * n + d) l 0 = n /\ (l = [n] \/ exists d r, l = d :: r /\ 0 < d)) as K; [|apply K; lia].
  induction f as [|f IH]; intros m L; [lia|]. cbn [dec_fuel]. destruct (m <? 10) eqn:E.
  - apply Nat.ltb_lt in E. exists [m]. repeat split; auto.
  - apply Nat.ltb_ge in E. destruct (IH (m / 10)) as (l & E1 & F & V & D).
    { pose proof (Nat.div_lt m 10 ltac:(lia) ltac:(lia)). lia. }
    exists (l ++ [m mod 10]). rewrite E1, map_app. split; [reflexivity|]. pose proof (Nat.mod_upper_bound m 10 ltac:(lia)).
    split; [apply Forall_app; auto|]. rewrite fold_left_app, V. cbn [fold_left].
    pose proof (Nat.div_mod m 10 ltac:(lia)). split; [lia|]. right.
    destruct D as [->|(d & r & -> & D)]; [|exists d, (r ++ [m mod 10]); auto].
    exists (m / 10), [m mod 10]. split; [reflexivity|]. assert (10 / 10 <= m / 10) by (apply Nat.div_le_mono; lia). change (10 / 10) with 1 in *. lia.
Qed.
Lemma dec_numeral n : dec n = numeral n.
Proof.
  destruct (dec_digits n) as (l & E & F & V & D). rewrite E. unfold numeral.
  assert (Nat.of_uint (digits_of l) = n) as O by (unfold Nat.of_uint; rewrite digits_acc by exact F; exact V).
  assert (Nat.to_uint n = digits_of l) as ->.
  { rewrite <- O, Unsigned.to_of. destruct D as [->|(d & r & -> & D)].
    - inversion F as [|? ? H _]. apply ten in H. repeat (destruct H as [->|H]; [reflexivity|]). now subst n.
    - inversion F as [|? ? H _]. subst. cbn [digits_of fold_right]. fold (digits_of r). apply ten in H.
      destruct H as [->|H]; [lia|]. repeat (destruct H as [->|H]; [reflexivity|]). now subst d. }
  rewrite <- (digits_string l F). f_equal. destruct l as [|d r]; [destruct D as [D|(d & r & D & _)]; discriminate|].
  inversion F as [|? ? H _]. subst. cbn [digits_of fold_right]. fold (digits_of r). apply ten in H.
  repeat (destruct H as [->|H]; [reflexivity|]). now subst d.
Qed.

(** ** The look of texts *)
Lemma recent_snoc l v : recent (l ++ [v]) = if shifted v then [v] else recent l ++ [v].
Proof.
  induction l as [|x l IH]; [cbn; now destruct (shifted v)|]. cbn [app recent]. rewrite existsb_app. cbn [existsb].
  rewrite orb_false_r. destruct (shifted v) eqn:S; [rewrite orb_true_r; exact IH|]. rewrite orb_false_r. destruct (existsb shifted l); [exact IH|reflexivity].
Qed.
Lemma last_snoc {A} (f : span_variant -> option A) l v : last_of f (l ++ [v]) = match f v with Some x => Some x | None => last_of f l end.
Proof. unfold last_of. now rewrite fold_left_app. Qed.
Lemma props_look l : props_of l = look l.
Proof.
  induction l as [|v l IH] using rev_ind; [reflexivity|]. unfold props_of in *. rewrite fold_left_app, IH. cbn [fold_left].
  unfold look. rewrite recent_snoc. destruct v; cbn [shifted apply_variant]; rewrite ?existsb_app, ?last_snoc; cbn [existsb r_bold r_italic r_courier r_highlight r_valign];
    rewrite ?orb_false_r, ?orb_true_r; reflexivity.
Qed.

(** ** Runs *)
Definition types (lb lb' : bool) (l : list bit) (rs : list run) : Prop :=
  turned lb l = lb' /\ forall rest rr, typed lb' rest rr -> typed lb (l ++ rest) (rs ++ rr).
Lemma types_nil lb : types lb lb [] [].
Proof. split; auto. Qed.
Lemma turned_app l : forall lb l', turned lb (l ++ l') = turned (turned lb l) l'.
Proof. induction l as [|[] l IH]; intros; cbn [app turned]; auto. Qed.
Lemma types_app lb lb1 lb2 l l' r r' : types lb lb1 l r -> types lb1 lb2 l' r' -> types lb lb2 (l ++ l') (r ++ r').
Proof.
  intros [A1 A2] [B1 B2]. split; [now rewrite turned_app, A1|]. intros rest rr T. rewrite <- !app_assoc. auto.
Qed.
Lemma types_typed lb lb' l rs : types lb lb' l rs -> typed lb l rs.
Proof. intros [_ H]. specialize (H [] [] I). now rewrite !app_nil_r in H. Qed.
Fixpoint entering (vs : list span_variant) (l : list mark) : list span_variant :=
  match l with
  | [] => vs
  | Enter v :: r => entering (vs ++ [v]) r
  | _ :: r => entering vs r
  end.
Lemma follow_app b l : forall vs l', follow b vs (l ++ l') = follow b vs l ++ follow b (entering vs l) l'.
Proof. induction l as [|[] l IH]; intros; cbn [app follow entering]; rewrite ?IH; reflexivity. Qed.
Lemma entering_app l : forall vs l', entering vs (l ++ l') = entering (entering vs l) l'.
Proof. induction l as [|[] l IH]; intros; cbn [app entering]; rewrite ?IH; reflexivity. Qed.
Definition inside_types (i : inline) : Prop := forall lb vs lb' vs' rs, runs_with_variant lb vs i = (lb', vs', rs) ->
  vs' = entering vs (marks i) /\ types lb lb' (follow true vs (marks i)) rs.
Lemma inside_list l : Forall inside_types l -> forall lb vs lb' vs' rs, runs_with_variant_list lb vs l = (lb', vs', rs) ->
  vs' = entering vs (List.concat (map marks l)) /\ types lb lb' (follow true vs (List.concat (map marks l))) rs.
Proof.
  induction 1 as [|x l Hx F IH]; intros lb vs lb' vs' rs E; cbn [runs_with_variant_list] in E.
  - injection E as <- <- <-. split; [reflexivity|apply types_nil].
  - destruct (runs_with_variant lb vs x) as [[lb1 vs1] r1] eqn:E1. destruct (runs_with_variant_list lb1 vs1 l) as [[lb2 vs2] r2] eqn:E2.
    injection E as <- <- <-. cbn [map List.concat]. rewrite entering_app, follow_app. destruct (Hx _ _ _ _ _ E1) as [-> T1]. destruct (IH _ _ _ _ _ E2) as [-> T2].
    split; [reflexivity|]. eapply types_app; eassumption.
Qed.
Lemma inside_types_ok i : inside_types i.
Proof.
  induction i as [v f l m loc o IH|v t l m loc IH|n k s loc|loc] using inline_ind'; intros lb vs lb' vs' rs E; cbn [runs_with_variant] in E; rewrite ?go_list in E.
  1, 2: cbn [marks entering follow]; eapply inside_list; [exact IH|exact E].
  - injection E as <- <- <-. split; [reflexivity|]. split; [reflexivity|]. intros rest rr W. cbn [marks follow app typed]. split; [|exact W].
    eexists _, (value_or_refd_char n s). split; [rewrite props_look; reflexivity|]. split; [apply reads_ok|]. intros U. apply inside_shown. eapply reads_utf8; [apply reads_ok|exact U].
  - injection E as <- <- <-. split; [reflexivity|]. split; [reflexivity|]. intros rest rr W. cbn [marks follow app typed]. auto.
Qed.
Lemma inline_types i lb lb' rs : runs_from_inline lb i = (lb', rs) -> types lb lb' (inline_bits i) rs.
Proof.
  intros E. destruct i as [v f l m loc o|v t l m loc|n k s loc|loc]; cbn [runs_from_inline] in E.
  1, 2: destruct (runs_with_variant_list lb _ l) as [[lb2 vs2] r2] eqn:E2; injection E as <- <-; unfold inline_bits; cbn [marks follow app];
    eapply inside_list; [apply Forall_forall; intros; apply inside_types_ok|exact E2].
  - injection E as <- <-. split; [reflexivity|]. intros rest rr W. unfold inline_bits. cbn [marks follow app typed]. split; [|exact W].
    eexists _, (value_or_refd_char n s). split; [reflexivity|]. split; [apply reads_ok|]. intros U. apply outside_shown. eapply reads_utf8; [apply reads_ok|exact U].
  - injection E as <- <-. split; [reflexivity|]. intros rest rr W. unfold inline_bits. cbn [marks follow app typed]. auto.
Qed.
Lemma inlines_types l : forall lb lb' rs, runs_from_inlines lb l = (lb', rs) -> types lb lb' (bits l) rs.
Proof.
  induction l as [|i l IH]; intros lb lb' rs E; cbn [runs_from_inlines] in E; [injection E as <- <-; apply types_nil|].
  destruct (runs_from_inline lb i) as [lb1 r1] eqn:E1. destruct (runs_from_inlines lb1 l) as [lb2 r2] eqn:E2. injection E as <- <-.
  unfold bits. cbn [map List.concat]. eapply types_app; [eapply inline_types; exact E1|]. eapply IH. exact E2.
Qed.
Lemma bits_app l l' : bits (l ++ l') = bits l ++ bits l'.
Proof. unfold bits. now rewrite map_app, concat_app. Qed.
Lemma all_bits_ok b : all_bits b = bits (block_inlines b).
Proof.
  induction b as [h m k loc IH] using block_ind'. cbn [all_bits block_inlines]. rewrite bits_app. f_equal; [now destruct h|].
  induction IH as [|x k Hx _ IHk]; [reflexivity|]. cbn [map List.concat]. now rewrite bits_app, Hx, IHk.
Qed.

(** ** Attributes and columns *)
Lemma attribute_ok k m : attribute k m = match m with Some x => mget (bs k) (m_attrs x) | None => None end.
Proof.
  destruct m as [x|]; [|reflexivity]. cbn [attribute]. induction (m_attrs x) as [|(a, v) l IH]; [reflexivity|]. cbn [find mget fst].
  destruct (beqb (bs k) a); [reflexivity|exact IH].
Qed.
Lemma digits_decimal s : forall n, digits_val n s = if forallb is_digit s then Some (fold_left (fun n c => (10 * n + (N_of_ascii c - 48))%N) s n) else None.
Proof.
  induction s as [|c s IH]; intros n; [reflexivity|]. cbn [digits_val forallb fold_left]. destruct (is_digit c); [|reflexivity]. cbn [andb]. rewrite IH.
  now replace (n * 10 + (N_of_ascii c - 48))%N with (10 * n + (N_of_ascii c - 48))%N by lia.
Qed.
Lemma number_ok s : parse_usize s = number s.
Proof.
  unfold parse_usize, number.
  replace (match s with c :: r => if Ascii.eqb c "+" then r else s | [] => s end) with (match s with "+" :: r => r | _ => s end).
  2: { destruct s as [|c r]; [reflexivity|]. destruct (Ascii.eqb c "+") eqn:E; [now apply Ascii.eqb_eq in E as ->|].
       destruct c as [[] [] [] [] [] [] [] []]; try reflexivity. discriminate E. }
  destruct (match s with "+" :: r => r | _ => s end) as [|c r]; [reflexivity|]. rewrite digits_decimal. unfold decimal.
  now destruct (forallb is_digit (c :: r)).
Qed.

(** ** Tables *)
Fixpoint cell_paras (lb : bool) (cells : list block) : bool * list para :=
  match cells with
  | [] => (lb, [])
  | b :: r =>
      let (lb1, rs) := runs_from_inlines lb (block_inlines b) in
      let (lb2, ps) := cell_paras lb1 r in
      (lb2, mkPara (style_id DTable) None false rs :: ps)
  end.
Fixpoint cut {A} (cols : N) (num idx : nat) (cells cur : list A) (rows : list (list A)) : dres (list (list A)) :=
  match cells with
  | [] => Ok rows
  | b :: r =>
      let* brk := docx_row_break cols idx num in
      if (brk : bool) then cut cols num (S idx) r [] (rows ++ [cur ++ [b]]) else cut cols num (S idx) r (cur ++ [b]) rows
  end.
Definition with_lb (lb : bool) (w : writer) : writer := mkWriter (wr_page_break w) lb (wr_abstract w) (wr_num w) (wr_style w).
Lemma table_rows_cut cols num cells : forall w d idx cur rows,
  table_rows (w, d) cols num idx cells cur rows
  = let (lb, ps) := cell_paras (wr_line_break w) cells in
    let* rows' := cut cols num idx ps cur rows in Ok ((with_lb lb w, d), rows').
Proof.
  induction cells as [|b r IH]; intros w d idx cur rows; [destruct w; reflexivity|]. cbn [table_rows cell_paras inline_runs].
  destruct (runs_from_inlines (wr_line_break w) (block_inlines b)) as [lb1 rs]. destruct (cell_paras lb1 r) as [lb2 ps] eqn:E. cbn [cut].
  destruct (docx_row_break cols idx num) as [[]| | | |]; cbn [bind]; try reflexivity; rewrite IH; cbn [wr_line_break]; rewrite E;
    destruct (cut _ _ _ _ _ _); reflexivity.
Qed.
Definition chunks {A} (c q : nat) (l : list A) : list (list A) := map (fun i => firstn c (skipn (i * c) l)) (seq 0 q).
Lemma chunks_cons {A} c q (x l : list A) : List.length x = c -> chunks c (S q) (x ++ l) = x :: chunks c q l.
Proof.
  intros L. unfold chunks. cbn [seq map]. f_equal.
  - cbn [Nat.mul skipn]. rewrite firstn_app, L, Nat.sub_diag. cbn [firstn]. rewrite app_nil_r. subst c. apply firstn_all.
  - rewrite <- seq_shift, map_map. apply map_ext. intros i. f_equal. rewrite <- L. cbn [Nat.mul]. rewrite skipn_app.
    rewrite skipn_all2 by lia. cbn [app]. f_equal. lia.
Qed.
Lemma cut_many {A} (c : nat) (cells : list A) : 2 <= c -> forall q cur rows num idx, List.length cur < c ->
  idx = q * c + List.length cur -> num = idx + List.length cells ->
  cut (N.of_nat c) num idx cells cur rows = Ok (rows ++ chunks c ((List.length cur + List.length cells - 1) / c) (cur ++ cells)).
Proof.
  intros C. induction cells as [|b r IH]; intros q cur rows num idx L E N.
  - cbn [cut List.length]. rewrite Nat.div_small by lia. cbn. now rewrite app_nil_r.
  - cbn [cut]. assert (docx_row_break (N.of_nat c) idx num = Ok ((S (List.length cur) =? c) && negb (List.length r =? 0))) as ->.
    { unfold docx_row_break. destruct (idx =? 0) eqn:Z.
      - apply Nat.eqb_eq in Z. assert (List.length cur = 0) as -> by lia. now replace (1 =? c) with false by (symmetry; apply Nat.eqb_neq; lia).
      - replace (N.of_nat c =? 0)%N with false by (symmetry; apply N.eqb_neq; lia). do 2 f_equal.
        + assert (N.of_nat (idx + 1) mod N.of_nat c = N.of_nat ((idx + 1) mod c))%N as ->
            by (rewrite Nat2N.inj_mod; reflexivity).
          replace (idx + 1) with (S (List.length cur) + q * c) by lia. rewrite Nat.mod_add by lia. destruct (S (List.length cur) =? c) eqn:S1.
          * apply Nat.eqb_eq in S1. rewrite S1, Nat.mod_same by lia. reflexivity.
          * apply Nat.eqb_neq in S1. rewrite Nat.mod_small by lia. apply N.eqb_neq. lia.
        + f_equal. cbn [List.length] in N. destruct (List.length r =? 0) eqn:R; [apply Nat.eqb_eq in R; apply Nat.eqb_eq; lia|apply Nat.eqb_neq in R; apply Nat.eqb_neq; lia]. }
    cbn [bind List.length] in *. destruct (S (List.length cur) =? c) eqn:S1; cbn [andb].
    + apply Nat.eqb_eq in S1. destruct r as [|y r].
      * cbn [List.length Nat.eqb negb cut]. rewrite Nat.div_small by lia. cbn. now rewrite app_nil_r.
      * cbn [List.length Nat.eqb negb]. rewrite (IH (S q)); [|cbn; lia|cbn [List.length]; lia|cbn [List.length] in *; lia].
        rewrite <- app_assoc. do 2 f_equal. cbn [app]. change (cur ++ b :: y :: r) with (cur ++ [b] ++ (y :: r)). rewrite (app_assoc cur).
        replace (List.length cur + S (S (List.length r)) - 1) with (1 * c + (List.length r)) by lia. rewrite Nat.div_add_l by lia. cbn [Nat.add List.length].
        rewrite chunks_cons by (rewrite app_length; cbn; lia). repeat f_equal. lia.
    + apply Nat.eqb_neq in S1. rewrite (IH q); [|rewrite app_length; cbn; lia|rewrite app_length; cbn; lia|lia].
      rewrite <- app_assoc, app_length. cbn [app List.length]. do 4 f_equal. lia.
Qed.
Lemma cut_one {A} (cells : list A) : forall cur rows num idx, 0 < idx -> num = idx + List.length cells ->
  cut 1 num idx cells cur rows = Ok match cells with
    | y :: z :: r => rows ++ (cur ++ [y]) :: map (fun x => [x]) (removelast (z :: r))
    | _ => rows
    end.
Proof.
  induction cells as [|y r IH]; intros cur rows num idx L N; [reflexivity|]. cbn [cut].
  assert (docx_row_break 1 idx num = Ok (negb (List.length r =? 0))) as ->.
  { unfold docx_row_break. replace (idx =? 0) with false by (symmetry; apply Nat.eqb_neq; lia). cbn [N.eqb Pos.eqb]. rewrite N.mod_1_r. cbn [N.eqb andb]. do 2 f_equal.
    cbn [List.length] in N. destruct (List.length r =? 0) eqn:R; [apply Nat.eqb_eq in R; apply Nat.eqb_eq; lia|apply Nat.eqb_neq in R; apply Nat.eqb_neq; lia]. }
  cbn [bind]. destruct r as [|z r]; [reflexivity|]. cbn [List.length Nat.eqb negb]. rewrite IH by (cbn [List.length] in *; lia).
  destruct r as [|u r]; [reflexivity|]. f_equal. rewrite <- app_assoc. reflexivity.
Qed.
Lemma cut_grid {A} c (cells : list A) : cut c (List.length cells) 0 cells [] []
  = if (c =? 0)%N && (2 <=? List.length cells) then Panic else Ok (grid c cells).
Proof.
  destruct (N.eq_dec c 0) as [->|Z]; [|replace (c =? 0)%N with false by (symmetry; now apply N.eqb_neq)]; [|cbn [andb]].
  - destruct cells as [|a [|b r]]; reflexivity.
  - destruct (N.eq_dec c 1) as [->|O].
    + destruct cells as [|a r]; [reflexivity|]. cbn [cut docx_row_break Nat.eqb bind]. rewrite cut_one by (cbn [List.length]; lia).
      destruct r as [|b [|x r]]; reflexivity.
    + assert (grid c cells = chunks (N.to_nat c) (N.to_nat ((N.of_nat (List.length cells) - 1) / c)) cells) as ->.
      { unfold grid, chunks. destruct c as [|[|[]|]]; try reflexivity; [contradiction|contradiction]. }
      pose proof (cut_many (N.to_nat c) cells ltac:(lia) 0 [] [] (List.length cells) 0) as K. rewrite N2Nat.id in K. rewrite K by (cbn; lia).
      cbn [app List.length Nat.add]. do 2 f_equal. apply Nat2N.inj. rewrite N2Nat.id, Nat2N.inj_div, N2Nat.id. f_equal. lia.
Qed.
Lemma grid_map {A B} (f : A -> B) c l : grid c (map f l) = map (map f) (grid c l).
Proof.
  assert (forall q, chunks (N.to_nat c) q (map f l) = map (map f) (chunks (N.to_nat c) q l)) as K.
  { intros q. unfold chunks. rewrite map_map. apply map_ext. intros i. now rewrite skipn_map, firstn_map. }
  destruct (N.eq_dec c 0) as [->|Z]; [reflexivity|]. destruct (N.eq_dec c 1) as [->|O].
  - destruct l as [|a [|b [|x r]]]; try reflexivity. cbn [grid map]. f_equal. rewrite map_map. cbn [map].
    change (f x :: map f r) with (map f (x :: r)). generalize (x :: r). intros s. induction s as [|y [|z s] IH]; try reflexivity.
    cbn [map removelast] in *. f_equal. exact IH.
  - unfold chunks in K. unfold grid. rewrite map_length. destruct c as [|[|[]|]]; try reflexivity; try contradiction; apply K.
Qed.
Lemma chunks_concat {A} c q (l : list A) : List.concat (chunks c q l) = firstn (q * c) l.
Proof.
  induction q as [|q IH]; [reflexivity|]. unfold chunks in *. rewrite seq_S, map_app, concat_app, IH. cbn [map List.concat Nat.add]. rewrite app_nil_r.
  rewrite <- (firstn_skipn (q * c) (firstn (S q * c) l)), firstn_firstn. replace (Nat.min (q * c) (S q * c)) with (q * c) by (cbn [Nat.mul]; lia).
  f_equal. rewrite skipn_firstn_comm. f_equal. cbn [Nat.mul]. lia.
Qed.
Lemma grid_concat {A} c (l : list A) : exists k, List.concat (grid c l) = firstn k l.
Proof.
  destruct (N.eq_dec c 0) as [->|Z]; [now exists 0|]. destruct (N.eq_dec c 1) as [->|O].
  - destruct l as [|a [|b [|x r]]]; try (exists 0; reflexivity). exists (S (S (List.length r))). cbn [grid List.concat app firstn]. do 2 f_equal.
    revert x. induction r as [|y r IH]; intros x; [reflexivity|]. cbn [removelast map List.concat app List.length firstn] in *. f_equal. apply IH.
  - assert (grid c l = chunks (N.to_nat c) (N.to_nat ((N.of_nat (List.length l) - 1) / c)) l) as ->.
    { unfold grid, chunks. destruct c as [|[|[]|]]; try reflexivity; contradiction. }
    eexists. apply chunks_concat.
Qed.
Lemma cells_typed cells : forall lb lb' ps, cell_paras lb cells = (lb', ps) ->
  typed_cells lb (map all_bits cells) ps /\ turned lb (List.concat (map all_bits cells)) = lb' /\ List.length ps = List.length cells.
Proof.
  induction cells as [|b r IH]; intros lb lb' ps E; cbn [cell_paras] in E; [injection E as <- <-; repeat split|].
  destruct (runs_from_inlines lb (block_inlines b)) as [lb1 rs] eqn:E1. destruct (cell_paras lb1 r) as [lb2 ps2] eqn:E2. injection E as <- <-.
  apply inlines_types in E1. rewrite <- all_bits_ok in E1. destruct (IH _ _ _ E2) as (T & U & L). cbn [map typed_cells List.concat List.length pa_style pa_numbering pa_page_break pa_runs].
  rewrite turned_app, (proj1 E1). split; [|split; [exact U|now rewrite L]]. repeat (split; [reflexivity|]). split; [exact (types_typed _ _ _ _ E1)|exact T].
Qed.
Lemma typed_firstn k : forall lb l ps, typed_cells lb l ps -> typed_cells lb (firstn k l) (firstn k ps).
Proof.
  induction k as [|k IH]; intros lb [|x l] [|p ps] T; try exact T; try exact I; cbn [firstn typed_cells] in *.
  destruct T as (A & B & C & D & E). repeat (split; [assumption|]). apply IH, E.
Qed.
Lemma map_fst_combine {A B} (l : list A) : forall (l' : list B), List.length l = List.length l' -> map fst (combine l l') = l /\ map snd (combine l l') = l'.
Proof.
  induction l as [|a l IH]; intros [|b l'] L; try discriminate; [split; reflexivity|]. injection L as L. destruct (IH _ L) as [H1 H2]. cbn. now rewrite H1, H2.
Qed.
Lemma grid_typed c lb l ps : List.length l = List.length ps -> typed_cells lb l ps ->
  map (@List.length _) (grid c ps) = map (@List.length _) (grid c l) /\ typed_cells lb (List.concat (grid c l)) (List.concat (grid c ps)).
Proof.
  intros L T. destruct (map_fst_combine l ps L) as [E1 E2]. set (z := combine l ps) in *. rewrite <- E1, <- E2, !grid_map, !map_map. split.
  - apply map_ext. intros x. now rewrite !map_length.
  - rewrite <- !concat_map. destruct (grid_concat c z) as [k ->]. rewrite <- !firstn_map, E1, E2. now apply typed_firstn.
Qed.

(** ** Styles and numberings *)
Lemma lists_app a b : lists (a ++ b) = lists a + lists b.
Proof. unfold lists. now rewrite filter_app, app_length. Qed.
Lemma lists_rev l : lists (rev l) = lists l.
Proof. unfold lists. induction l as [|e l IH]; [reflexivity|]. cbn [rev]. rewrite filter_app, app_length, IH. destruct e; cbn; lia. Qed.
Lemma entries_app l : forall n l', entries n (l ++ l') = entries n l ++ entries (n + lists l) l'.
Proof.
  unfold lists. induction l as [|[]]; intros n l'; cbn [app entries filter List.length]; rewrite ?Nat.add_0_r; try reflexivity; try (rewrite IHl; reflexivity).
  destruct v; cbn [app]; rewrite IHl; do 3 f_equal; lia.
Qed.
Lemma bulleted_app l : forall n l', bulleted n (l ++ l') = match bulleted n l with Some k => Some k | None => bulleted (n + lists l) l' end.
Proof.
  unfold lists. induction l as [|[]]; intros n l'; cbn [app bulleted filter List.length]; rewrite ?Nat.add_0_r; try reflexivity; try (apply IHl).
  destruct v; [rewrite IHl; now replace (S n + List.length (filter (fun e => match e with Opened _ => true | _ => false end) l))
    with (n + S (List.length (filter (fun e => match e with Opened _ => true | _ => false end) l))) by lia|reflexivity].
Qed.
Lemma first_snoc l x : forall known, first_of_each known (l ++ [x])
  = first_of_each known l ++ if in_dec (list_eq_dec Ascii.ascii_dec) (fst x) (known ++ map fst (first_of_each known l)) then [] else [x].
Proof.
  induction l as [|y l IH]; intros known.
  - cbn [app first_of_each map]. rewrite app_nil_r. now destruct (in_dec _ (fst x) known).
  - cbn [app first_of_each]. destruct (in_dec _ (fst y) known); [apply IH|]. cbn [app map]. rewrite IH. f_equal. f_equal.
    destruct (in_dec _ (fst x) ((fst y :: known) ++ _)) as [H|H]; destruct (in_dec _ (fst x) (known ++ fst y :: _)) as [K|K]; try reflexivity; exfalso.
    + apply K. apply in_app_iff. destruct H as [H|H]; [right; now left|]. apply in_app_iff in H as [H|H]; [now left|right; now right].
    + apply H. apply in_app_iff in K as [K|[K|K]]; [right; apply in_app_iff; now left|now left|right; apply in_app_iff; now right].
Qed.
Lemma table_snoc l e x : entries (lists l) [e] = [x] ->
  style_table (l ++ [e]) = if memb (fst x) (map fst (style_table l)) then style_table l else style_table l ++ [x].
Proof.
  intros E. unfold style_table. rewrite entries_app, Nat.add_0_l, E, app_assoc, first_snoc. cbn [app].
  destruct (memb _ _) eqn:M; destruct (in_dec _ _ _) as [H|H]; try reflexivity; try apply app_nil_r; exfalso.
  - apply H. now apply memb_In.
  - apply memb_In in H. congruence.
Qed.
Lemma table_same l e : entries (lists l) [e] = [] -> style_table (l ++ [e]) = style_table l.
Proof. intros E. unfold style_table. now rewrite entries_app, Nat.add_0_l, E, app_nil_r. Qed.
Lemma normal_known l : memb (bs "Normal") (map fst (style_table l)) = true.
Proof. unfold style_table. cbn [map app first_of_each fst snd]. reflexivity. Qed.

(** ** Steps of the writer *)
(** [before]: the latest first *)
Definition matches (before : list event) (st : writer * docx) : Prop :=
  style_id (wr_style (fst st)) = style_at before /\ wr_page_break (fst st) = due before /\ wr_num (fst st) = lists before
  /\ wr_abstract (fst st) = match bulleted 0 (rev before) with Some _ => 1 | None => 0 end
  /\ d_styles (snd st) = style_table (rev before)
  /\ d_abstract (snd st) = match bulleted 0 (rev before) with Some _ => [1] | None => [] end
  /\ d_nums (snd st) = match bulleted 0 (rev before) with Some n => [(n, 1)] | None => [] end.
Definition good (before es : list event) (st st' : writer * docx) : Prop :=
  matches (rev es ++ before) st'
  /\ exists bodies, d_body (snd st') = d_body (snd st) ++ bodies
     /\ forall rest rr, typeset (wr_line_break (fst st')) rest rr -> typeset (wr_line_break (fst st)) (page before es ++ rest) (bodies ++ rr).
Lemma page_app a : forall before b, page before (a ++ b) = page before a ++ page (rev a ++ before) b.
Proof. induction a as [|e a IH]; intros; [reflexivity|]. cbn [app page rev]. now rewrite IH, <- !app_assoc. Qed.
Lemma good_nil before st : matches before st -> good before [] st st.
Proof. intros M. split; [exact M|]. exists []. split; [now rewrite app_nil_r|]. auto. Qed.
Lemma good_app before a b s1 s2 s3 : good before a s1 s2 -> good (rev a ++ before) b s2 s3 -> good before (a ++ b) s1 s3.
Proof.
  intros [M1 (b1 & E1 & T1)] [M2 (b2 & E2 & T2)]. split; [now rewrite rev_app_distr, <- app_assoc|].
  exists (b1 ++ b2). split; [now rewrite E2, E1, app_assoc|]. intros rest rr T. rewrite page_app, <- !app_assoc. auto.
Qed.
Lemma good_cons before e b s1 s2 s3 : good before [e] s1 s2 -> good (e :: before) b s2 s3 -> good before (e :: b) s1 s3.
Proof. intros A B. exact (good_app before [e] b s1 s2 s3 A B). Qed.
(** steps that write nothing *)
Lemma good_silent before e st st' : shown_as before e = [] -> d_body (snd st') = d_body (snd st) -> wr_line_break (fst st') = wr_line_break (fst st) ->
  matches (e :: before) st' -> good before [e] st st'.
Proof.
  intros S B L M. split; [exact M|]. exists []. split; [now rewrite app_nil_r|]. intros rest rr T. cbn [page]. rewrite S. cbn [app]. now rewrite <- L.
Qed.
Lemma styled before st s name base : matches before st -> style_id s = name -> style_entry s = entry name base ->
  good before [Style name base] st (set_style st s).
Proof.
  destruct st as [w d]. intros (A & B & C & D & E & F & G) N X. cbn [fst snd] in *. apply good_silent; [reflexivity| |reflexivity|].
  - cbn [set_style snd]. unfold add_style. now destruct (memb _ _).
  - assert (entries (lists (rev before)) [Style name base] = [style_entry s]) as T by (cbn; now rewrite X).
    unfold matches. cbn [set_style fst snd wr_style wr_page_break wr_num wr_abstract style_at due lists filter rev].
    rewrite (table_snoc _ _ _ T), bulleted_app. cbn [bulleted]. unfold add_style. change (fst (style_entry s)) with (generated_id s). rewrite <- E.
    destruct (memb (generated_id s) (map fst (d_styles d))); cbn [d_styles d_abstract d_nums]; rewrite ?E, D, F, G;
      destruct (bulleted 0 (rev before)); repeat split; auto.
Qed.
Lemma resetted before st : matches before st -> good before [normal] st (reset_style st).
Proof.
  destruct st as [w d]. intros (A & B & C & D & E & F & G). cbn [fst snd] in *. apply good_silent; try reflexivity.
  assert (entries (lists (rev before)) [normal] = [style_entry DNormal]) as T by reflexivity.
  unfold matches. cbn [reset_style fst snd wr_style wr_page_break wr_num wr_abstract rev]. rewrite (table_snoc _ _ _ T), bulleted_app.
  change (fst (style_entry DNormal)) with (bs "Normal"). rewrite normal_known. cbn [bulleted normal style_at due lists filter]. rewrite ?E, D, F, G.
  destruct (bulleted 0 (rev before)); repeat split; auto.
Qed.
Lemma page_line before it l : page before [Line it l] = [Paragraph (style_at before) (if it then Some (lists before) else None) (due before) l].
Proof. reflexivity. Qed.
Lemma matches_line before it l w d b lb : matches before (w, d) ->
  matches (Line it l :: before) (mkWriter false lb (wr_abstract w) (wr_num w) (wr_style w), add_body d b).
Proof.
  intros (A & B & C & D & E & F & G). cbn [fst snd] in *.
  unfold matches. cbn [fst snd wr_style wr_page_break wr_num wr_abstract rev style_at due lists filter add_body d_styles d_abstract d_nums].
  rewrite table_same, bulleted_app by reflexivity. cbn [bulleted]. rewrite D, E, F, G. destruct (bulleted 0 (rev before)); repeat split; auto.
Qed.
Lemma lined before st (it : bool) num l : matches before st -> num = (if it then Some (wr_num (fst st)) else None) ->
  good before [Line it (bits l)] st (add_inlines_paragraph st num l).
Proof.
  destruct st as [w d]. intros M ->. unfold add_inlines_paragraph, inline_runs. cbn [fst]. destruct (runs_from_inlines (wr_line_break w) l) as [lb rs] eqn:R.
  apply inlines_types in R. split; [now apply matches_line|]. eexists (cons _ nil). split; [reflexivity|]. intros rest rr T. rewrite page_line.
  destruct M as (A & B & C & _). cbn [fst snd wr_line_break add_paragraph wr_style wr_page_break app typeset pa_style pa_numbering pa_page_break pa_runs] in *.
  rewrite A, B, C, (proj1 R). repeat (split; [reflexivity|]). split; [exact (types_typed _ _ _ _ R)|exact T].
Qed.
Lemma labelled before st s : matches before st -> good before [Line false [Label s]] st (add_paragraph st None [text_run s]).
Proof.
  destruct st as [w d]. intros M. split; [now apply matches_line|]. eexists (cons _ nil). split; [reflexivity|]. intros rest rr T. rewrite page_line.
  destruct M as (A & B & C & _). cbn [fst snd wr_line_break add_paragraph wr_style wr_page_break app typeset pa_style pa_numbering pa_page_break pa_runs] in *.
  rewrite A, B. repeat (split; [reflexivity|]). split; [|exact T]. cbn [typed]. split; [reflexivity|exact I].
Qed.
Lemma fed before w d : matches before (w, d) ->
  good before [Feed] (w, d) (mkWriter true (wr_line_break w) (wr_abstract w) (wr_num w) (wr_style w), d).
Proof.
  intros (A & B & C & D & E & F & G). cbn [fst snd] in *. apply good_silent; try reflexivity.
  unfold matches. cbn [fst snd wr_style wr_page_break wr_num wr_abstract rev style_at due lists filter].
  rewrite table_same, bulleted_app by reflexivity. cbn [bulleted]. rewrite D, E, F, G. destruct (bulleted 0 (rev before)); repeat split; auto.
Qed.
Lemma opened before st v : matches before st -> good before [Opened v] st (docx_list_start st v).
Proof.
  destruct st as [w d]. intros (A & B & C & D & E & F & G). cbn [fst snd] in *. apply good_silent.
  - reflexivity.
  - unfold docx_list_start. destruct v; cbn [set_style snd]; unfold add_style; destruct (memb _ _); cbn [wr_abstract]; try reflexivity;
      destruct (wr_abstract w =? 0); reflexivity.
  - unfold docx_list_start. destruct v; cbn [set_style fst wr_abstract]; try reflexivity. destruct (wr_abstract w =? 0); reflexivity.
  - unfold docx_list_start, matches. cbn [set_style wr_num]. destruct v.
    + assert (entries (lists (rev before)) [Opened LOrdered] = [style_entry (DOrderedListParagraph (S (lists before)))]) as T.
      { cbn [entries]. rewrite lists_rev. unfold entry, style_entry. cbn [generated_id style_id style_base]. rewrite dec_numeral. reflexivity. }
      cbn [rev]. rewrite (table_snoc _ _ _ T), bulleted_app. change (fst (style_entry (DOrderedListParagraph (S (lists before))))) with (generated_id (DOrderedListParagraph (S (lists before)))).
      cbn [bulleted fst snd wr_style wr_page_break wr_num wr_abstract style_id style_at due lists filter List.length].
      unfold add_style. rewrite C, <- E, dec_numeral. fold (lists before).
      destruct (memb (generated_id _) (map fst (d_styles d))); cbn [d_styles d_abstract d_nums]; rewrite ?E, ?D, ?F, ?G;
        destruct (bulleted 0 (rev before)); repeat split; auto.
    + assert (entries (lists (rev before)) [Opened LUnordered] = [style_entry DListParagraph]) as T by reflexivity.
      cbn [rev]. rewrite (table_snoc _ _ _ T), bulleted_app. change (fst (style_entry DListParagraph)) with (generated_id DListParagraph).
      cbn [bulleted wr_abstract wr_style wr_page_break wr_num Nat.add]. unfold add_style. rewrite <- E, lists_rev.
      destruct (memb (generated_id DListParagraph) (map fst (d_styles d))); destruct (bulleted 0 (rev before)); rewrite D; cbn [Nat.eqb fst snd wr_style wr_page_break wr_num wr_abstract
         style_id style_at due lists filter List.length d_styles d_abstract d_nums]; rewrite ?F, ?G, ?C; repeat split; auto.
Qed.

(** ** Blocks *)
Section Img.
Context (img : bytes -> dres unit).
Definition runs (before es : list event) (st : writer * docx) (r : dres (writer * docx)) : Prop :=
  match first_trouble img es with
  | Ok _ => exists st', r = Ok st' /\ good before es st st'
  | Err e => r = Err e
  | Panic => r = Panic
  | Hang => r = Hang
  | Exit => r = Exit
  end.
Definition quiet (es : list event) : Prop := Forall (fun e => trouble img e = Ok Datatypes.tt) es.
Lemma quiet_none es : quiet es -> first_trouble img es = Ok Datatypes.tt.
Proof. induction 1 as [|e es H _ IH]; [reflexivity|]. cbn [first_trouble]. now rewrite H. Qed.
Lemma trouble_app a : forall b, first_trouble img (a ++ b) = match first_trouble img a with Ok _ => first_trouble img b | x => x end.
Proof. induction a as [|e a IH]; intros b; [reflexivity|]. cbn [app first_trouble]. destruct (trouble img e); try reflexivity. apply IH. Qed.
Lemma runs_good before es st st' : quiet es -> good before es st st' -> runs before es st (Ok st').
Proof. intros Q G. unfold runs. rewrite (quiet_none _ Q). exists st'. split; [reflexivity|exact G]. Qed.
Lemma runs_bind before a b st r k : runs before a st r -> (forall st', good before a st st' -> runs (rev a ++ before) b st' (k st')) ->
  runs before (a ++ b) st (bind r k).
Proof.
  unfold runs. intros H K. rewrite trouble_app. destruct (first_trouble img a) as [u|e| | |]; [|subst r; reflexivity..].
  destruct H as (st' & -> & G). cbn [bind]. specialize (K st' G). destruct (first_trouble img b); try exact K.
  destruct K as (st2 & E & G2). exists st2. split; [exact E|]. eapply good_app; eassumption.
Qed.
Lemma runs_after before a b st st' r : quiet a -> good before a st st' -> runs (rev a ++ before) b st' r -> runs before (a ++ b) st r.
Proof.
  unfold runs. intros Q G H. rewrite trouble_app, (quiet_none _ Q). destruct (first_trouble img b); try exact H.
  destruct H as (s2 & E & G2). exists s2. split; [exact E|]. eapply good_app; eassumption.
Qed.
Definition block_runs (b : block) : Prop := forall before st, matches before st -> runs before (events b) st (docx_block img st b).
Fixpoint walk (st : writer * docx) (l : list block) : dres (writer * docx) :=
  match l with
  | [] => Ok st
  | x :: r => let* st' := docx_block img st x in walk st' r
  end.
Lemma walk_runs l : Forall block_runs l -> forall before st, matches before st -> runs before (List.concat (map events l)) st (walk st l).
Proof.
  induction 1 as [|x l Hx _ IH]; intros before st M; cbn [map List.concat walk].
  - apply runs_good; [constructor|]. now apply good_nil.
  - apply runs_bind; [now apply Hx|]. intros st' [G _]. now apply IH.
Qed.
Lemma walk_go l : forall st, (fix go (st : writer * docx) (l : list block) : dres (writer * docx) :=
   match l with [] => Ok st | x :: r => let* st' := docx_block img st x in go st' r end) st l = walk st l.
Proof. induction l as [|x l IH]; intros st; [reflexivity|]. cbn [walk]. destruct (docx_block img st x); cbn [bind]; try rewrite <- IH; reflexivity. Qed.
Lemma walk_blocks l : forall st, docx_blocks img st l = walk st l.
Proof. induction l as [|x l IH]; intros st; [reflexivity|]. cbn [walk docx_blocks]. destruct (docx_block img st x); cbn [bind]; try rewrite <- IH; reflexivity. Qed.
Lemma attached_good k : forall before st, matches before st ->
  good before (map (fun x => Line false (all_bits x)) k) st (fold_left (fun s b => add_inlines_paragraph s None (block_inlines b)) k st).
Proof.
  induction k as [|x k IH]; intros before st M; [now apply good_nil|]. cbn [map fold_left].
  assert (good before [Line false (all_bits x)] st (add_inlines_paragraph st None (block_inlines x))) as G by (rewrite all_bits_ok; now apply lined).
  eapply good_cons; [exact G|]. apply IH. exact (proj1 G).
Qed.
Lemma quiet_line before l : quiet (map (fun x : block => Line before (all_bits x)) l).
Proof. apply Forall_map, Forall_forall. reflexivity. Qed.
Lemma item_good before st mk p k loc m : matches before st -> good before (events (Blk (HListItem mk p) m k loc)) st (docx_list_item st p k).
Proof.
  intros M. cbn [events]. unfold docx_list_item.
  pose proof (lined before st true _ p M eq_refl) as G1. set (st1 := add_inlines_paragraph _ _ _) in *.
  destruct k as [|x k]; [exact G1|]. eapply good_cons; [exact G1|].
  pose proof (styled _ _ DListParagraphContinue (bs "ListParagraphContinue") (bs "No Spacing") (proj1 G1) eq_refl eq_refl) as G2.
  eapply good_cons; [exact G2|]. pose proof (attached_good (x :: k) _ _ (proj1 G2)) as G3. eapply good_app; [exact G3|]. apply resetted. exact (proj1 G3).
Qed.
Lemma table_runs before st m k : matches before st ->
  runs before [style "Table" "Normal"; Grid (attribute "cols" m) (map all_bits k)] st (docx_table st m k).
Proof.
  intros M. pose proof (styled _ _ DTable (bs "Table") (bs "Normal") M eq_refl eq_refl) as G. unfold docx_table.
  apply (runs_after before [style "Table" "Normal"] _ st (set_style st DTable)); [repeat constructor|exact G|].
  destruct G as [G _]. cbn [rev app] in *. change (Style (bs "Table") (bs "Normal")) with (style "Table" "Normal") in G.
  assert (match m with
    | Some md => match mget (bs "cols") (m_attrs md) with
                 | Some c => match parse_usize c with Some n => Ok n | None => Err DColumn end
                 | None => Ok 0%N
                 end
    | None => Ok 0%N
    end = match columns (attribute "cols" m) with Some c => Ok c | None => Err DColumn end) as ->.
  { unfold columns. rewrite attribute_ok. destruct m as [x|]; [|reflexivity]. destruct (mget _ _) as [v|]; [|reflexivity]. now rewrite number_ok. }
  set (s := set_style st DTable) in *. clearbody s. clear M st. destruct s as [w d]. unfold runs. cbn [first_trouble trouble]. rewrite map_length.
  destruct (columns (attribute "cols" m)) as [c|] eqn:C; [|reflexivity]. cbn [bind]. rewrite table_rows_cut. destruct (cell_paras (wr_line_break w) k) as [lb ps] eqn:P.
  destruct (cells_typed _ _ _ _ P) as (T & U & L). rewrite <- L, cut_grid. destruct ((c =? 0)%N && (2 <=? List.length ps)); [reflexivity|]. cbn [bind].
  eexists. split; [reflexivity|]. destruct G as (A & B & C' & D & E & F & G'). cbn [fst snd] in *. split.
  - unfold matches. cbn [fst snd with_lb wr_style wr_page_break wr_num wr_abstract rev app add_body d_styles d_abstract d_nums] in *.
    rewrite table_same by reflexivity. rewrite bulleted_app. cbn [bulleted style_at due lists filter].
    repeat (split; [first [assumption | now rewrite ?D, ?F, ?G'; destruct (bulleted 0 (rev before ++ [style "Table" "Normal"]))]|]).
    now rewrite G'; destruct (bulleted 0 (rev before ++ [style "Table" "Normal"])).
  - eexists (cons _ nil). split; [reflexivity|]. intros rest rr R. cbn [page shown_as]. rewrite C. cbn [app typeset fst wr_line_break with_lb] in *.
    rewrite U. destruct (grid_typed c (wr_line_break w) (map all_bits k) ps) as [X Y]; [now rewrite map_length|exact T|]. auto.
Qed.
Lemma picture_runs before w d t : matches before (w, d) -> runs before [Image t] (w, d) (let* _ := img t in Ok (w, add_body d (BPic t))).
Proof.
  intros M. unfold runs. cbn [first_trouble trouble]. destruct (img t) as [[]| | | |]; try reflexivity. cbn [bind]. eexists. split; [reflexivity|].
  destruct M as (A & B & C & D & E & F & G). cbn [fst snd] in *. split.
  - unfold matches. cbn [fst snd rev app add_body d_styles d_abstract d_nums].
    rewrite table_same, bulleted_app by reflexivity. cbn [bulleted style_at due lists filter]. rewrite D, E, F, G. destruct (bulleted 0 (rev before)); repeat split; auto.
  - eexists (cons _ nil). split; [reflexivity|]. intros rest rr R. cbn [page shown_as app typeset]. auto.
Qed.
Lemma boxed_runs before st name v t k : Forall block_runs k -> matches before st -> bs (name ++ " Title")%string <> bs "ThematicBreak" -> bs (name ++ " Text")%string <> bs "ThematicBreak" ->
  runs before (boxed name v t (List.concat (map events k))) st
    (let st := match v with
               | Some x => add_paragraph (set_style st (DSectionTitle (bs name))) None [text_run (variant_display x)]
               | None => st
               end in
     let st := match t with [] => st | _ => add_inlines_paragraph (set_style st (DSectionTitle (bs name))) None t end in
     let* st := walk (set_style st (DSectionText (bs name))) k in Ok (reset_style st)).
Proof.
  intros K M N1 N2. unfold boxed. cbv zeta.
  assert (forall x, bs (name ++ x)%string = bs name ++ bs x) as BA.
  { intros x. clear. unfold bs. induction name as [|c s IH]; [reflexivity|]. cbn. now rewrite IH. }
  assert (forall before st, matches before st -> good before [style (name ++ " Title") "Title"] st (set_style st (DSectionTitle (bs name)))) as ST.
  { intros b s X. apply styled; [exact X|cbn [style_id]; now rewrite BA|]. unfold style_entry, entry. cbn [generated_id style_id style_base]. rewrite <- BA.
    destruct (beqb (bs (name ++ " Title")) (bs "ThematicBreak")) eqn:Q; [apply beqb_eq in Q; congruence|reflexivity]. }
  assert (forall before st, matches before st -> good before [style (name ++ " Text") "Normal"] st (set_style st (DSectionText (bs name)))) as SX.
  { intros b s X. apply styled; [exact X|cbn [style_id]; now rewrite BA|]. unfold style_entry, entry. cbn [generated_id style_id style_base]. rewrite <- BA.
    destruct (beqb (bs (name ++ " Text")) (bs "ThematicBreak")) eqn:Q; [apply beqb_eq in Q; congruence|reflexivity]. }
  set (e1 := match v with Some x => _ | None => [] end). set (st1 := match v with Some x => add_paragraph _ _ _ | None => st end).
  assert (good before e1 st st1 /\ quiet e1) as [G1 Q1].
  { unfold e1, st1. destruct v as [x|]; [|split; [now apply good_nil|constructor]]. split; [|repeat constructor].
    pose proof (ST _ _ M) as G. eapply good_cons; [exact G|]. replace (label_of x) with (variant_display x) by now destruct x. apply labelled. exact (proj1 G). }
  clearbody e1 st1. apply (runs_after before e1 _ st st1); [exact Q1|exact G1|]. destruct G1 as [M1 _]. set (b1 := rev e1 ++ before) in *. clearbody b1.
  set (e2 := match t with [] => [] | _ => _ end). set (st2 := match t with [] => st1 | _ => _ end).
  assert (good b1 e2 st1 st2 /\ quiet e2) as [G2 Q2].
  { unfold e2, st2. destruct t as [|i t]; [split; [now apply good_nil|constructor]|]. split; [|repeat constructor].
    pose proof (ST _ _ M1) as G. eapply good_cons; [exact G|]. apply lined; [exact (proj1 G)|reflexivity]. }
  clearbody e2 st2. apply (runs_after b1 e2 _ st1 st2); [exact Q2|exact G2|]. destruct G2 as [M2 _]. set (b2 := rev e2 ++ b1) in *. clearbody b2.
  pose proof (SX _ _ M2) as G3. apply (runs_after b2 [_] _ st2 (set_style st2 (DSectionText (bs name)))); [repeat constructor|exact G3|].
  apply runs_bind; [apply walk_runs; [exact K|exact (proj1 G3)]|]. intros st' [G4 _]. apply runs_good; [repeat constructor|]. now apply resetted.
Qed.
Lemma block_runs_ok b : block_runs b.
Proof.
  induction b as [h m k loc IH] using block_ind'. intros before st M. cbn [docx_block]. rewrite !walk_go.
  pose proof (walk_runs k IH) as W.
  destruct h as [id t lv|v|mk p| |t p|[]|t c|n f dl l|n v dl t|l].
  - cbn [events]. destruct t as [|i t]; [now apply W|].
    pose proof (styled _ _ (DHeading lv) (bs "Heading " ++ numeral lv) (bs "Normal") M) as G1.
    rewrite <- dec_numeral in *. specialize (G1 eq_refl eq_refl).
    pose proof (lined _ _ false None (i :: t) (proj1 G1) eq_refl) as G2. pose proof (resetted _ _ (proj1 G2)) as G3.
    eapply (runs_after before [_; _; _]); [repeat constructor|eapply good_cons; [exact G1|]; eapply good_cons; [exact G2|exact G3]|]. apply W. exact (proj1 G3).
  - cbn [events]. pose proof (opened _ _ v M) as G. eapply (runs_after before [_]); [repeat constructor|exact G|]. apply W. exact (proj1 G).
  - apply runs_good; [|now apply item_good]. cbn [events]. constructor; [reflexivity|]. destruct k as [|x k]; [constructor|]. constructor; [reflexivity|].
    apply Forall_app. split; [apply quiet_line|repeat constructor].
  - now apply W.
  - cbn [events].
    pose proof (styled _ _ DDefinitionTerm (bs "Definition Term") (bs "Normal") M eq_refl eq_refl) as G1.
    pose proof (lined _ _ false None t (proj1 G1) eq_refl) as G2.
    pose proof (styled _ _ DDefinition (bs "Definition") (bs "Normal") (proj1 G2) eq_refl eq_refl) as G3.
    pose proof (lined _ _ false None p (proj1 G3) eq_refl) as G4.
    eapply (runs_after before [_; _; _; _]); [repeat constructor|do 3 (eapply good_cons; [eassumption|]); exact G4|]. apply W. exact (proj1 G4).
  - destruct st as [w d]. apply runs_good; [repeat constructor|]. now apply fed.
  - apply runs_good; [repeat constructor|]. pose proof (styled _ _ DThematicBreak (bs "ThematicBreak") (bs "Normal") M eq_refl eq_refl) as G1.
    eapply good_cons; [exact G1|]. apply labelled. exact (proj1 G1).
  - destruct st as [w d]. now apply picture_runs.
  - apply runs_good; [destruct n; repeat constructor|].
    destruct n; cbn [events]; try (apply lined; [exact M|reflexivity]).
    1, 2: pose proof (styled _ _ DMonospace (bs "Monospace") (bs "") M eq_refl eq_refl) as G1; eapply good_cons; [exact G1|]; apply lined; [exact (proj1 G1)|reflexivity].
    pose proof (styled _ _ DVerse (bs "Verse") (bs "No Spacing") M eq_refl eq_refl) as G1; eapply good_cons; [exact G1|]; apply lined; [exact (proj1 G1)|reflexivity].
  - destruct n; cbn [events].
    1-7: idtac.
    all: try (apply boxed_runs; [exact IH|exact M|discriminate|discriminate]).
    all: try now apply W.
    all: try now apply table_runs.
    all: try (apply runs_good; [constructor|now apply good_nil]).
    pose proof (styled _ _ DQuote (bs "Quote") (bs "No Spacing") M eq_refl eq_refl) as G1.
    eapply (runs_after before [_]); [repeat constructor|exact G1|]. apply runs_bind; [apply W; exact (proj1 G1)|]. intros st' [G2 _].
    rewrite attribute_ok. destruct m as [md|]; [destruct (mget _ _) as [a|]|].
    + pose proof (labelled _ _ (bs "— " ++ a ++ [NL]) G2) as G3. apply runs_good; [repeat constructor|]. eapply good_cons; [exact G3|]. apply resetted. exact (proj1 G3).
    + apply runs_good; [repeat constructor|]. now apply resetted.
    + apply runs_good; [repeat constructor|]. now apply resetted.
  - apply runs_good; [constructor|now apply good_nil].
Qed.

(** ** Graphs *)
Lemma start_matches : matches [] (new_writer, default_docx).
Proof. unfold matches. cbn [fst snd rev]. repeat split. Qed.
Lemma graph_runs a : match first_trouble img (graph_events a) with
  | Ok _ => exists d, render_docx img a = Ok d /\ presents (graph_events a) d
  | Err e => render_docx img a = Err e
  | Panic => render_docx img a = Panic
  | Hang => render_docx img a = Hang
  | Exit => render_docx img a = Exit
  end.
Proof.
  unfold graph_events, title_events, render_docx. set (e1 := match a_header a with Some h => _ | None => [] end). set (st1 := match a_header a with Some h => _ | None => _ end).
  assert (good [] e1 (new_writer, default_docx) st1 /\ quiet e1) as [G1 Q1].
  { unfold e1, st1. destruct (a_header a) as [h|]; [|split; [apply good_nil, start_matches|constructor]].
    destruct (hd_title h) as [|i t]; [split; [apply good_nil, start_matches|constructor]|]. split; [|repeat constructor].
    pose proof (styled _ _ DTitle (bs "Title") (bs "Normal") start_matches eq_refl eq_refl) as X1.
    pose proof (lined _ _ false None (i :: t) (proj1 X1) eq_refl) as X2. pose proof (resetted _ _ (proj1 X2)) as X3.
    match goal with |- good [] ?es ?x ?y => replace y with (reset_style (add_inlines_paragraph (set_style x DTitle) None (i :: t))) end.
    - eapply good_cons; [exact X1|]. eapply good_cons; [exact X2|exact X3].
    - unfold add_inlines_paragraph, inline_runs, set_style. change (add_style default_docx DTitle) with default_docx.
      cbn [new_writer wr_line_break]. destruct (runs_from_inlines false (i :: t)) as [lb rs]. reflexivity. }
  clearbody e1 st1. pose proof (walk_runs (a_blocks a)) as W. rewrite walk_blocks.
  assert (runs [] (e1 ++ List.concat (map events (a_blocks a))) (new_writer, default_docx) (walk st1 (a_blocks a))) as R.
  { apply (runs_after [] e1 _ _ st1); [exact Q1|exact G1|]. apply W; [|exact (proj1 G1)]. apply Forall_forall. intros b _. apply block_runs_ok. }
  unfold runs in R. destruct (first_trouble img _) as [[]|e| | |]; try (rewrite R; reflexivity).
  destruct R as (st' & -> & G). destruct st' as [w d]. cbn [bind]. exists d. split; [reflexivity|].
  destruct G as [(A & B & C & D & E & F & G) (bodies & X & T)]. rewrite app_nil_r, rev_involutive in *. cbn [snd fst] in *.
  repeat split; try assumption. cbn [d_body default_docx app] in X. rewrite X. specialize (T [] [] I). now rewrite !app_nil_r in T.
Qed.
End Img.

(** ** Numberings *)
Definition body_numbers (b : body) : list nat := match b with BPara p => match pa_numbering p with Some n => [n] | None => [] end | _ => [] end.
Definition item_numbers (i : item) : list nat := match i with Paragraph _ (Some n) _ _ => [n] | _ => [] end.
Lemma typeset_numbers l : forall lb b, typeset lb l b -> flat_map body_numbers b = flat_map item_numbers l.
Proof.
  induction l as [|[s n f x|rows cells|t] l IH]; intros lb [|[p|ps|t'] b] T; try (destruct T; fail); try reflexivity; cbn [typeset] in T; cbn [flat_map].
  - destruct T as (_ & N & _ & _ & T). rewrite (IH _ _ T). f_equal. cbn [body_numbers item_numbers]. now rewrite N.
  - destruct T as (_ & _ & T). now rewrite (IH _ _ T).
  - destruct T as (_ & T). now rewrite (IH _ _ T).
Qed.
Lemma page_numbers l : forall before, flat_map item_numbers (page before l) = item_lists (lists before) l.
Proof.
  induction l as [|e l IH]; intros before; [reflexivity|]. cbn [page]. rewrite flat_map_app, IH.
  destruct e as [| | |[] | |]; cbn [item_lists lists filter shown_as flat_map item_numbers app]; try reflexivity.
  destruct (columns cols); reflexivity.
Qed.
Lemma numbers_ok img a d : render_docx img a = Ok d ->
  numbers_used d = item_lists 0 (graph_events a) /\ map fst (d_nums d) = match bulleted 0 (graph_events a) with Some n => [n] | None => [] end.
Proof.
  intros R. pose proof (graph_runs img a) as G. rewrite R in G. destruct (first_trouble img (graph_events a)); try discriminate.
  destruct G as (d' & E & T & _ & _ & N). injection E as <-. split.
  - etransitivity; [exact (typeset_numbers _ _ _ T)|]. apply (page_numbers _ []).
  - rewrite N. now destruct (bulleted 0 (graph_events a)).
Qed.
