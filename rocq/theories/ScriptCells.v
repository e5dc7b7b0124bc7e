(** * Scripts: the cells of tables *)
From Verif Require ArticleWhole ScanMain2 VerbatimProofs ScanLine ScanLemmas.
From Verif Require Import Base World Location Token Scanner Meta Inline Block Asg Parser SpecScan SpecLex SpecDoc SpecArticle
  DocGraph GraphLemmas ArticleGraph ScanWhole ScriptWords ScriptText ScriptLocs ScriptDecor ScriptGraph ScriptBlocks LastBlind SpecScript.
Local Open Scope char_scope.
Local Open Scope nat_scope.
Local Arguments reconcile : simpl never.
Local Arguments token_locations : simpl never.
Local Arguments token_text : simpl never.
Local Arguments consolidate_locations : simpl never.
Local Arguments last_opt : simpl never.
Local Arguments push_block : simpl never.

(** ** The lines on which tokens stand *)
Section Lines.
Variable fs : list bytes.
Definition next_line (n : nat) (t : token) : nat := match ttype t with TNewLineChar => S n | _ => n end.
Fixpoint linear (n : nat) (ts : list token) : Prop :=
  match ts with [] => True | t :: r => (tline t = n /\ tfiles t = fs) /\ linear (next_line n t) r end.
Definition lined (ts : list token) : Prop := exists n, linear n ts.
Lemma linear_app a : forall n b, linear n (a ++ b) -> linear n a /\ linear (fold_left next_line a n) b.
Proof. induction a as [|t a IH]; intros n b H; [split; [exact I|exact H]|]. cbn [app linear fold_left] in *. destruct H as [H1 H2]. apply IH in H2 as [H2 H3]. auto. Qed.
Lemma lined_app a b : lined (a ++ b) -> lined a /\ lined b.
Proof. intros (n & H). apply linear_app in H as [H1 H2]. split; eexists; eassumption. Qed.
Lemma laid_linear ks : forall line col, linear line (laid fs line col ks).
Proof. induction ks as [|[ty l] ks IH]; intros line col; [exact I|]. destruct ty; cbn [laid linear]; split; try (split; reflexivity); apply IH. Qed.

(** ** The first location of a table *)
Definition below (n : nat) (l : list location) : Prop := Forall (fun x => loc_file x = fs /\ n <= loc_line x) l.
Definition anchored (n : nat) (l : list location) : Prop := below n l /\ exists x r, l = x :: r /\ loc_line x = n.
Lemma insert_below n x l : loc_file x = fs /\ n <= loc_line x -> below n l -> below n (loc_insert x l).
Proof.
  intros Hx. induction 1 as [|y l Hy Hl IH]; cbn [loc_insert]; [now apply Forall_cons|]. destruct (loc_leb x y); [|now apply Forall_cons].
  apply Forall_cons; [assumption|]. now apply Forall_cons.
Qed.
Lemma sort_below n l : below n l -> below n (loc_sort l).
Proof. induction 1 as [|x l Hx _ IH]; [constructor|]. now apply insert_below. Qed.
Lemma insert_anchored n x l : loc_file x = fs -> loc_line x = n -> below n l -> anchored n (loc_insert x l).
Proof.
  intros F L H. split; [apply insert_below; [split; [assumption|lia]|assumption]|]. destruct H as [|y l [Hf Hy] Hl]; cbn [loc_insert]; [now exists x, []|].
  destruct (loc_leb x y) eqn:E; [now exists x, (y :: l)|]. exists y, (loc_insert x l). split; [reflexivity|].
  unfold loc_leb, loc_cmp in E. rewrite F, Hf, Nat.eqb_refl in E. destruct (loc_line x =? loc_line y) eqn:E1; [apply Nat.eqb_eq in E1; lia|].
  destruct (loc_line x ?= loc_line y) eqn:E2; try discriminate. apply Nat.compare_gt_iff in E2. lia.
Qed.
Lemma last_below n r x : below n (x :: r) -> Forall (fun x => loc_file x = fs /\ n <= loc_line x) [last r x].
Proof.
  intros H. apply Forall_cons; [|constructor]. revert x H. induction r as [|y r IH]; intros x H; inversion H as [|? ? H1 H2]; subst; [exact H1|].
  cbn [last]. destruct r as [|z r]; [inversion H2; assumption|]. apply (IH x). apply Forall_cons; [assumption|]. now inversion H2.
Qed.
Lemma ends_anchored n l : anchored n l -> anchored n (ends_of l).
Proof.
  intros (H & x & r & -> & L). destruct r as [|y r]; [split; [exact H|now exists x, []]|]. cbn [ends_of].
  split; [|now exists x, [last (y :: r) x]]. unfold below in *. inversion H as [|? ? H1 H2]. subst. apply Forall_cons; [assumption|]. now apply last_below.
Qed.
Lemma reconcile_anchored n l o : anchored n l -> below n o -> anchored n (reconcile l o).
Proof.
  intros (H & x & r & -> & L) Ho. unfold reconcile. destruct o as [|y o]; [split; [assumption|now exists x, r]|]. apply ends_anchored. cbn [app loc_sort].
  inversion H as [|? ? [H1 H1'] H2]. subst. apply insert_anchored; auto. apply sort_below. apply Forall_app. auto.
Qed.
Lemma below_weaken n m l : n <= m -> below m l -> below n l.
Proof. intros L. apply Forall_impl. intros x [H1 H2]. split; [assumption|lia]. Qed.

(** ** The cells of a table, pushed onto it *)
Definition cell_on (n : nat) (b : block) : Prop := exists x r, b_locs b = x :: r /\ loc_line x = n /\ below n (x :: r).
Lemma cells_pushed v d ti m n l : Forall (fun b => is_cell b = true) l -> Forall (fun b => below n (b_locs b)) l -> forall k loc, anchored n loc ->
  exists loc', push_blocks (Blk (HParent PTable v d ti) m k loc) l = Ok (Blk (HParent PTable v d ti) m (k ++ l) loc') /\ anchored n loc'.
Proof.
  intros F1 F2. induction F1 as [|b l Hb _ IH]; intros k loc A; cbn [push_blocks]; [exists loc; split; [now rewrite app_nil_r|assumption]|]. inversion F2 as [|? ? H1 H2]. subst.
  assert (push_block (Blk (HParent PTable v d ti) m k loc) b = Ok (Blk (HParent PTable v d ti) m (k ++ [b]) (reconcile loc (b_locs b)))) as ->.
  { unfold push_block. assert (is_list_item b = false) as -> by now destruct b as [[] ? ? ?]. rewrite Hb. cbn [parent_name_beq negb andb bind]. unfold consolidate_locations.
    unfold last_locs. now rewrite last_opt_snoc. }
  cbn [bind]. destruct (IH H2 (k ++ [b]) _ (reconcile_anchored n loc (b_locs b) A H1)) as (loc' & -> & A'). exists loc'. split; [now rewrite <- app_assoc|assumption].
Qed.

(** ** What a table is told *)
Lemma split_count s : List.length (split_on (fun c => Ascii.eqb c ",") s) = S (List.length (filter (Ascii.eqb ",") s)).
Proof.
  induction s as [|c s IH]; [reflexivity|]. cbn [split_on filter]. rewrite (Ascii.eqb_sym "," c). destruct (Ascii.eqb c ","); [cbn [List.length]; now rewrite IH|].
  destruct (split_on _ s); [discriminate IH|exact IH].
Qed.
Lemma memc_existsb c s : memc c s = existsb (Ascii.eqb c) s.
Proof. reflexivity. Qed.
Definition col_fine (v : bytes) : bool := match v with [_; c] => negb (is_cont c) | _ => true end.
Lemma simplified m : match lookup (bs "cols") (m_attrs m) with Some v => col_fine v | None => true end = true -> simplify_cols m = Ok (counted m).
Proof.
  unfold simplify_cols, counted. rewrite lookup_get. destruct (lookup (bs "cols") (m_attrs m)) as [v|] eqn:El; [|reflexivity]. intros H.
  rewrite memc_existsb. unfold columns. destruct (existsb (Ascii.eqb ",") v); [now rewrite split_count, insert_attr|].
  assert (forall m v, lookup (bs "cols") (m_attrs m) = Some v -> with_attr (bs "cols") v m = m) as Same.
  { clear. intros m v H. unfold with_attr. destruct m as [at0 o r i t l]. cbn [m_attrs m_options m_roles m_inline m_type m_loc] in *. f_equal.
    unfold lookup in H. induction at0 as [|[k x] l0 IH]; [discriminate|]. cbn [find enter fst] in *. destruct (beqb k (bs "cols")) eqn:E.
    - cbn in H. injection H as ->. apply ScanLemmas.beqb_eq in E as ->. reflexivity.
    - now rewrite IH. }
  destruct v as [|a [|b [|c v]]]; try (cbn [List.length Nat.eqb]; now rewrite Same).
  2:{ cbn [List.length Nat.eqb]. rewrite Same; [reflexivity|]. rewrite El. now destruct b as [[] [] [] [] [] [] [] []]. }
  cbn [List.length Nat.eqb]. cbn [col_fine] in H. unfold slice. cbn [Nat.leb List.length is_boundary Nat.eqb nth_error andb orb]. rewrite H.
  cbn [andb orb Nat.leb Nat.sub firstn skipn bind]. 
  destruct (beqb [b] (bs "*")) eqn:E.
  - apply ScanLemmas.beqb_eq in E. injection E as ->. now rewrite insert_attr.
  - rewrite Same; [reflexivity|]. rewrite El. destruct b as [[] [] [] [] [] [] [] []]; try reflexivity. discriminate E.
Qed.

Lemma chr_digit n : n < 10 -> is_cont (chr (48 + n)) = false.
Proof. intros H. do 10 (destruct n as [|n]; [reflexivity|]). lia. Qed.
Lemma dec_fine n : col_fine (dec n) = true.
Proof.
  unfold dec. assert (forall f, Forall (fun c => is_cont c = false) (dec_fuel f n)) as H.
  { intros f. revert n. induction f as [|f IH]; intros n; [constructor|]. cbn [dec_fuel]. destruct (n <? 10) eqn:E.
    - apply Nat.ltb_lt in E. apply Forall_cons; [now apply chr_digit|constructor].
    - apply Forall_app. split; [apply IH|]. apply Forall_cons; [apply chr_digit; apply Nat.mod_upper_bound; lia|constructor]. }
  specialize (H (S n)). destruct (dec_fuel (S n) n) as [|a [|b [|? ?]]]; try reflexivity. inversion H as [|? ? _ H']. inversion H' as [|? ? H'' _]. subst. cbn. now rewrite H''.
Qed.
Lemma lookup_enter k v l : lookup k (enter k v l) = Some v.
Proof.
  unfold lookup. induction l as [|[k' v'] l IH]; cbn [enter find fst].
  - assert (beqb k k = true) as -> by now apply ScanLemmas.beqb_eq. reflexivity.
  - destruct (beqb k' k) eqn:E; cbn [find fst]; [assert (beqb k k = true) as -> by (now apply ScanLemmas.beqb_eq); reflexivity|]. now rewrite E.
Qed.
Lemma counted_unplaced m : unplaced_meta (counted m) = counted (unplaced_meta m).
Proof. unfold counted. cbn [unplaced_meta m_attrs]. now destruct (lookup (bs "cols") (m_attrs m)). Qed.

Definition row_gap (r : row) : nat := match r with Row _ gap => if gap then 1 else 0 end.
Fixpoint row_lines (n : nat) (rows : list row) : list nat :=
  match rows with [] => [] | r :: rs => map (fun _ => n) (row_cells r) ++ row_lines (S n + row_gap r) rs end.
Lemma row_lines_below rows : forall n, Forall (fun x => n <= x) (row_lines n rows).
Proof.
  induction rows as [|[l gap] rows IH]; intros n; [constructor|]. cbn [row_lines row_cells row_gap]. apply Forall_app. split.
  - apply Forall_forall. intros x Hx. apply in_map_iff in Hx as (? & <- & _). lia.
  - eapply Forall_impl; [|apply IH]. cbn. intros x. destruct gap; lia.
Qed.
Lemma row_lines_length rows : forall n, List.length (row_lines n rows) = List.length (grid_cells rows).
Proof. induction rows as [|r rows IH]; intros n; [reflexivity|]. unfold grid_cells in *. cbn [row_lines map List.concat]. now rewrite !app_length, map_length, IH. Qed.
Lemma count_first n l : forall k r, Forall (fun x => n < x) r -> Forall2 cell_on (map (fun _ : bytes * list element => n) l ++ r) k -> count_line k n = List.length l.
Proof.
  induction l as [|c l IH]; intros k r F H; cbn [map app] in H.
  - unfold count_line. induction H as [|x y r k (a & q & E & L & _) H IHk]; [reflexivity|]. inversion F as [|? ? F1 F2]. subst. cbn [filter]. rewrite E.
    replace (loc_line a =? n) with false by (symmetry; apply Nat.eqb_neq; lia). now apply IHk.
  - inversion H as [|? y ? k' (a & q & E & L & _) H']. subst. specialize (IH k' r F H'). unfold count_line in *. cbn [filter]. rewrite E, Nat.eqb_refl. cbn [List.length]. now rewrite IH.
Qed.
Lemma same_length {A B} (R : A -> B -> Prop) l k : Forall2 R l k -> List.length l = List.length k.
Proof. induction 1; cbn; congruence. Qed.
Lemma lined_block n b : cell_on n b -> block_line b = Ok n.
Proof. intros (x & r & E & L & _). unfold block_line. now rewrite E, L. Qed.
Lemma grid_info d ti me kids loc n (gap : bool) rows : anchored n loc -> Forall2 cell_on (row_lines (S n + (if gap then 1 else 0)) rows) kids ->
  forallb (fun r => match row_cells r with [] => false | _ => true end) rows = true ->
  match option_map unplaced_meta me with Some m => cols_ok m | None => true end = true ->
  match rows, option_map unplaced_meta me with Row [_] _ :: _ :: _, None => false | _, _ => true end = true ->
  exists me', consolidate_table_info (Blk (HParent PTable None d ti) me kids loc) = Ok (Blk (HParent PTable None d ti) me' kids loc)
    /\ option_map unplaced_meta me' = grid_meta gap rows (option_map unplaced_meta me).
Proof.
  intros (_ & l0 & lr & -> & L0) F Hn Hc He. set (n0 := S n + (if gap then 1 else 0)) in *.
  pose proof (row_lines_length rows n0) as El. pose proof (same_length _ _ _ F) as Ek. rewrite El in Ek. clear El.
  unfold consolidate_table_info, grid_meta.
  destruct kids as [|c0 [|c1 kids]].
  - destruct (grid_cells rows) as [|? [|]]; try discriminate Ek. exists me. auto.
  - destruct (grid_cells rows) as [|? [|]]; try discriminate Ek. exists me. auto.
  - destruct (grid_cells rows) as [|g0 [|g1 gs]] eqn:Eg; try discriminate Ek.
    destruct rows as [|[first gap1] rows]; [discriminate Eg|]. cbn [forallb row_cells] in Hn. apply andb_prop in Hn as [Hf Hn]. cbn [row_lines row_cells row_gap] in F. cbn [map row_cells].
    destruct first as [|x0 [|x1 first]]; [discriminate Hf| |].
    + (* one cell *)
      cbn [map app] in F. inversion F as [|? ? ? ? C0 F']. subst. 
      destruct rows as [|[first2 gap2] rows]; [discriminate Eg|]. cbn [forallb row_cells] in Hn. apply andb_prop in Hn as [Hf2 Hn]. destruct first2 as [|y0 first2]; [discriminate Hf2|].
      cbn [row_lines row_cells map app] in F'. inversion F' as [|? ? ? ? C1 F'']. subst.
      rewrite (lined_block _ _ C0), (lined_block _ _ C1). cbn [bind]. match goal with |- context [n0 =? ?m] => replace (n0 =? m) with false by (symmetry; apply Nat.eqb_neq; lia) end. cbn [bind].
      destruct me as [m|]; [|discriminate He]. cbn [option_map] in Hc |- *.
      rewrite simplified; [|unfold cols_ok in Hc; cbn [unplaced_meta m_attrs] in Hc; destruct (lookup (bs "cols") (m_attrs m)) as [[|? [|? [|]]]|]; auto].
      cbn [bind]. eexists. split; [reflexivity|]. cbn [option_map]. now rewrite counted_unplaced.
    + assert (count_line (c0 :: c1 :: kids) n0 = List.length (x0 :: x1 :: first)) as Ec.
      { apply (count_first n0 (x0 :: x1 :: first) _ (row_lines (S n0 + row_gap (Row (x0 :: x1 :: first) gap1)) rows)); [|exact F].
        eapply Forall_impl; [|apply row_lines_below]. cbn. intros y. destruct gap1; lia. }
      cbn [map app] in F. inversion F as [|? ? ? ? C0 F']. subst. inversion F' as [|? ? ? ? C1 F'']. subst.
      rewrite (lined_block _ _ C0), (lined_block _ _ C1). cbn [bind]. rewrite Nat.eqb_refl. cbn [bind]. rewrite Ec.
      assert ((n0 =? loc_line l0 + 1) = negb gap) as -> by (unfold n0; destruct gap; cbn [negb]; [apply Nat.eqb_neq|apply Nat.eqb_eq]; lia).
      set (len := List.length (x0 :: x1 :: first)).
      set (m0 := get_meta me). set (m1 := if gap then m0 else set_m_options m0 (m_options m0 ++ [bs "header"])).
      set (m2 := if cols_given m1 then m1 else with_attr (bs "cols") (dec len) m1).
      match goal with |- context [match ?e with Some x => _ | None => Some (m_insert _ _ _) end] => set (o := e) end.
      assert (match o with Some x => Some (if mhas (bs "cols") (m_attrs x) then x else m_insert (bs "cols") (dec len) x) | None => Some (m_insert (bs "cols") (dec len) default_metadata) end = Some m2) as ->.
      { unfold o, m2, m1, m0, cols_given, mhas. destruct gap; cbn [negb].
        - destruct me as [m|]; cbn [get_meta]; [now rewrite lookup_get, insert_attr; destruct (lookup (bs "cols") (m_attrs m))|]. rewrite insert_attr. reflexivity.
        - rewrite lookup_get, insert_attr. now destruct (lookup _ _). }
      assert (match lookup (bs "cols") (m_attrs m2) with Some v => col_fine v | None => true end = true) as Hfine.
      { unfold m2, cols_given. destruct (lookup (bs "cols") (m_attrs m1)) as [v|] eqn:Ev.
        - rewrite Ev. assert (m_attrs m1 = m_attrs m0) as Ea by (unfold m1; now destruct gap). rewrite Ea in Ev. unfold m0 in Ev. destruct me as [m|]; [|discriminate Ev].
          cbn [get_meta] in Ev. cbn [option_map] in Hc. unfold cols_ok in Hc. cbn [unplaced_meta m_attrs] in Hc. unfold cols_ok in Hc. rewrite Ev in Hc. destruct v as [|? [|? [|]]]; auto.
        - cbn [with_attr m_attrs]. rewrite lookup_enter. apply dec_fine. }
      rewrite (simplified m2 Hfine). cbn [bind]. eexists. split; [reflexivity|]. cbn [option_map]. f_equal. rewrite counted_unplaced. f_equal.
      unfold m2. assert (unplaced_meta m1 = (let m := match option_map unplaced_meta me with Some m => m | None => blank end in
         if gap then m else mkMeta (m_attrs m) (m_options m ++ [bs "header"]) (m_roles m) (m_inline m) (m_type m) [])) as E1.
      { unfold m1, m0. destruct gap, me as [m|]; reflexivity. }
      cbv zeta in E1 |- *. rewrite <- E1. unfold cols_given. cbn [unplaced_meta m_attrs]. now destruct (lookup (bs "cols") (m_attrs m1)).
Qed.

End Lines.
Arguments linear_app {fs}.
Arguments lined_app {fs}.
Arguments reconcile_anchored {fs}.
Arguments cells_pushed {fs}.
Arguments count_first {fs}.
Arguments lined_block {fs}.
Arguments grid_info {fs}.

(** ** The tokens of a cell *)
Lemma not_eof before ty l after : grammar before ty l after -> ty <> TEof.
Proof.
  intros G ->. inversion G as [ty l0 r M| | | |]. apply M. cbn. auto.
Qed.
Lemma laid_words files before src ks : tokenised before src ks -> forall line col, are_words ks (laid files line col ks).
Proof.
  induction 1 as [before|before ty l after ks G _ _ _ IH]; intros line col.
  - cbn. constructor; [|constructor]. repeat split.
  - apply not_eof in G. cbn [laid].
    destruct ty; try congruence; constructor; try apply IH; repeat split.
Qed.
Definition shift (line col : nat) (t : token) : token := update_token_loc_offsets_by t line col.
Lemma shift_words line col ws ts : are_words ws ts -> are_words ws (map (shift line col) ts).
Proof. induction 1 as [|x t ws ts (H1 & H2 & H3) _ IH]; constructor; [|exact IH]. now repeat split. Qed.
Lemma cells_blind w f line col l : forall ts, are_words l ts -> forallb cell_word l = true -> forall ty p q, parse_loop w f (map (shift line col) ts) p = Ok q ->
  cell_loop (token_into w f) line col ts (set_last ty p) = Ok (set_last ty q).
Proof.
  induction l as [|x l IH]; intros ts W H ty p q E; [inversion W; subst; cbn in *; congruence|].
  apply words_cons in W as (t & ts' & -> & Wt & W). cbn [forallb] in H. apply andb_prop in H as [H1 H2].
  cbn [map parse_loop] in E. apply ScanLemmas.bind_ok in E as (p1 & E1 & E2). cbn [cell_loop]. fold (shift line col t).
  rewrite b_token_into; try (cbn [shift update_token_loc_offsets_by ttype]; rewrite (word_type _ _ Wt); unfold cell_word in H1; intros K; rewrite K in H1; discriminate).
  rewrite E1. cbn [rmap bind]. exact (IH ts' W H2 ty _ _ E2).
Qed.
Lemma push_inlines_cell l m k loc : forall x, push_inlines (Blk (HCell x) m k loc) l = Ok (Blk (HCell (x ++ l)) m k loc).
Proof. induction l as [|i l IH]; intros x; cbn; [now rewrite app_nil_r|]. now rewrite IH, <- app_assoc. Qed.

Section Gaps.
  Variables (w : world) (fuel : nat) (here : bytes * list bytes) (resolve : bool).
  Notation st := (stm here resolve None).
  Notation loop := (parse_loop w fuel).
  Ltac cst := unfold ScriptBlocks.stm; pst.
  Lemma gap_step (gap : bool) ts n0 attrs b bst n keep force close dang a : are_words (gap_words gap) ts -> linear (snd here) n0 ts -> is_list_item b = false -> is_dlist_item b = false ->
    exists force' dang', loop ts (st TNewLineChar attrs (b :: bst) [] [n] keep false force close dang a)
      = Ok (st TNewLineChar attrs (b :: bst) [] [n] keep false force' close dang' a) /\ fold_left next_line ts n0 = n0 + (if gap then 1 else 0).
  Proof.
    intros W Ln H1 H2. destruct gap.
    - cbn [gap_words] in W. apply words_cons in W as (t & ts' & -> & Wt & W). inversion W. subst. exists true, None. cbn [fold_left]. unfold next_line. rewrite (word_type _ _ Wt). cbn [fst newline].
      split; [|lia]. cbn [parse_loop]. rewrite blank_newline; [|assumption|reflexivity|split; assumption]. rewrite add_nothing. cbn [bind]. unfold blank_tail. cst. rewrite andb_false_r.
      unfold push_block_to_stack. pst. rewrite andb_false_r. pst. now rewrite (word_type _ _ Wt).
    - inversion W. subst. exists force, dang. cbn. split; [reflexivity|lia].
  Qed.
End Gaps.

Section Cells.
  Variables (w : world) (f : nat) (here : bytes * list bytes) (resolve : bool).
  Notation fuel := (S f).
  Notation stm := (stm here resolve).
  Notation st := (stm None).
  Notation loop := (parse_loop w fuel).
  Ltac cst := unfold ScriptBlocks.stm; pst.

  Definition cell_text (keep : manner) (e : env) (l : list element) : list inline := text_inlines keep e None false l.
  Definition scanned_cell (c : bytes * list element) : Prop := utf8 (fst c) /\ tokenised [] (fst c) (text_words (snd c) ++ [(TEof, [])]).
  Lemma cell_token (c : bytes * list element) t lst attrs e bst n keep force close dang a : is_word (TTableCell, "|" :: fst c) t -> scanned_cell c -> cell_ok keep (snd c) = true ->
    agrees attrs e ->
    exists l dang', token_into w fuel t (st lst attrs bst [] [n] keep false force close dang a)
      = Ok (st lst attrs (Blk (HCell l) None [] (token_locations t) :: bst) [] [n] keep false false (close || macros (snd c)) dang' a)
      /\ map unplaced_inline l = cell_text keep e (snd c).
  Proof.
    intros W [U K] Hc A. destruct c as [s l]. cbn [fst snd] in *.
    assert (scan_stream s [] = (laid [] 1 1 (text_words l ++ [(TEof, [])]), Ok Datatypes.tt)) as Es.
    { apply VerbatimProofs.scan_is_stream. apply (proj2 (scan_is_grammar s [] U _)). eauto. }
    pose proof (laid_words [] _ _ _ K 1 1) as Wl. remember (laid [] 1 1 (text_words l ++ [(TEof, [])])) as ts eqn:Et. clear Et.
    apply words_split in Wl as (t1 & t2 & -> & W1 & W2). apply words_cons in W2 as (te & t3 & -> & We & W2). inversion W2. subst t3.
    cbn [token_into]. cst. unfold pre_dispatch. cbn [p_open_type]. rewrite (word_type _ _ W). cbn [fst]. unfold parse_table_cell.
    assert (token_text t = "|" :: s) as -> by exact (word_text _ _ W).
    assert (slice ("|" :: s) 1 (List.length ("|" :: s)) = (Ok s : result bytes)) as ->.
    { apply (slice_tail ["|"] s). destruct (ScanLine.utf8_head s U) as [-> |(x & r & -> & H)]; [exact I|exact H]. }
    cbn [bind]. unfold push_block_to_stack. pst. rewrite andb_false_r. pst. rewrite Es. unfold new_cell.
    set (b0 := Blk (HCell []) None [] (token_locations t)).
    assert (forall lst bst ist m il force close dang a, token_into w f (shift (tline t) (startcol t) te) (stm m lst attrs bst ist [n] keep il force close dang a)
      = Ok (stm m lst attrs bst ist [n] keep il force close dang a)) as Eof.
    { intros. assert (is_word (TEof, []) (shift (tline t) (startcol t) te)) as We' by exact We. rewrite (go w f here resolve (TEof, [])) by (assumption || discriminate). unfold dispatch.
      rewrite (word_type _ _ We'). reflexivity. }
    assert (exists ist il force' dang', cell_loop (token_into w f) (tline t) (startcol t) (t1 ++ [te]) (st lst attrs (b0 :: bst) [] [n] keep false force close None a)
      = Ok (st lst attrs (b0 :: bst) ist [n] keep il force' (close || macros l) dang' a) /\ map unplaced_inline (rev ist) = cell_text keep e l) as (ist & il & force' & dang' & E & B).
    { assert (forall x p q, cell_loop (token_into w f) (tline t) (startcol t) x p = Ok q ->
        cell_loop (token_into w f) (tline t) (startcol t) (x ++ [te]) p = cell_loop (token_into w f) (tline t) (startcol t) [te] q) as J.
      { induction x as [|y x IH]; intros p q H; [injection H as ->; reflexivity|]. cbn [app cell_loop] in *. apply ScanLemmas.bind_ok in H as (p1 & E1 & E2). rewrite E1. cbn [bind]. now apply IH. }
      destruct l as [|x0 l].
      - inversion W1. subst t1. exists [], false, force, None. split; [|reflexivity]. cbn [app cell_loop]. fold (shift (tline t) (startcol t) te). rewrite Eof. cbn [bind macros existsb]. now rewrite orb_false_r.
      - cbn [cell_ok] in Hc. apply andb_prop in Hc as [Hf Hw].
        destruct (text_loop0 w f here resolve (x0 :: l) (map (shift (tline t) (startcol t)) t1) lst attrs e (b0 :: bst) [n] keep false force close a A (shift_words _ _ _ _ W1) Hf)
          as (l1 & ist & il & d1 & E1 & _ & B & _).
        exists ist, il, (force || styled (x0 :: l)), d1. split; [|exact B].
        apply (cells_blind w f (tline t) (startcol t) _ _ W1 Hw lst) in E1. rewrite set_last_st in E1.
        rewrite (J _ _ _ E1). cbn [cell_loop]. fold (shift (tline t) (startcol t) te). rewrite set_last_st, Eof. reflexivity. }
    match goal with |- context [cell_loop _ _ _ _ ?p] => change p with (st lst attrs (b0 :: bst) [] [n] keep false force close None a) end.
    rewrite E. cbn [bind]. unfold add_inlines_to_block_stack. cst. exists (rev ist), dang'. split; [|exact B].
    destruct ist as [|i ist]; [reflexivity|]. unfold b0. cbn [takes_inlines b_head]. pst. rewrite push_inlines_cell. reflexivity.
  Qed.
  Definition cell_block (keep : manner) (e : env) (c : bytes * list element) : block := Blk (HCell (cell_text keep e (snd c))) None [] [].
  Definition cell_macros (l : list (bytes * list element)) : bool := existsb (fun c => macros (snd c)) l.
  Lemma cells_step l : forall ts n0 lst attrs e bst n keep force close dang a, are_words (map (fun c => (TTableCell, "|" :: fst c)) l) ts -> linear (snd here) n0 ts ->
    Forall scanned_cell l -> forallb (fun c => cell_ok keep (snd c)) l = true -> agrees attrs e ->
    exists acc lst' force' dang', loop ts (st lst attrs bst [] [n] keep false force close dang a)
      = Ok (st lst' attrs (acc ++ bst) [] [n] keep false force' (close || cell_macros l) dang' a)
      /\ map unplaced (rev acc) = map (cell_block keep e) l /\ Forall (cell_on (snd here) n0) acc /\ (l <> [] -> lst' = TTableCell)
      /\ fold_left next_line ts n0 = n0.
  Proof.
    induction l as [|c l IH]; intros ts n0 lst attrs e bst n keep force close dang a W Ln S Hc A.
    - inversion W. subst. exists [], lst, force, dang. cbn [cell_macros existsb parse_loop app]. rewrite orb_false_r. split; [reflexivity|]. split; [reflexivity|]. split; [constructor|]. split; [congruence|reflexivity].
    - cbn [map] in W. apply words_cons in W as (t & ts' & -> & Wt & W). inversion S as [|? ? S1 S2]. subst. cbn [forallb] in Hc. apply andb_prop in Hc as [H1 H2].
      cbn [linear] in Ln. destruct Ln as [[Lt Lf] Ln].
      destruct (cell_token c t lst attrs e bst n keep force close dang a Wt S1 H1 A) as (k & d1 & E1 & B1).
      set (b := Blk (HCell k) None [] (token_locations t)) in *.
      assert (next_line n0 t = n0) as En by (unfold next_line; now rewrite (word_type _ _ Wt)). rewrite En in Ln.
      destruct (IH ts' n0 (ttype t) attrs e (b :: bst) n keep false (close || macros (snd c)) d1 a W Ln S2 H2 A) as (acc & l2 & f2 & d2 & E2 & B2 & O2 & N2 & F2).
      exists (acc ++ [b]), l2, f2, d2. split; [|split; [|split; [|split]]].
      + rewrite (loop_cons w fuel _ _ _ _ E1), set_last_st, E2. cbn [cell_macros existsb]. now rewrite <- app_assoc, orb_assoc.
      + rewrite rev_app_distr. cbn [rev app map]. rewrite B2. unfold b, cell_block at 1. cbn [unplaced unplaced_head map option_map]. now rewrite B1.
      + apply Forall_app. split; [exact O2|]. apply Forall_cons; [|constructor]. exists (first_location t), [last_location t]. split; [reflexivity|]. cbn. split; [exact Lt|].
        unfold below. apply Forall_cons; [cbn; split; [exact Lf|lia]|]. apply Forall_cons; [cbn; split; [exact Lf|lia]|constructor].
      + intros _. destruct l as [|c' l]; [|now apply N2]. inversion W. subst ts'. cbn in E2. 
        assert (acc = []) as -> by (apply (f_equal (@List.length _)) in B2; rewrite map_length, rev_length in B2; now destruct acc).
        injection E2 as E2. rewrite <- E2. now rewrite (word_type _ _ Wt).
      + cbn [fold_left]. now rewrite En.
  Qed.

  (** *** Rows *)
  Lemma rows_step rows : forall ts n0 attrs e bst n keep force close dang a, are_words (List.concat (map row_words rows)) ts -> linear (snd here) n0 ts ->
    Forall scanned_cell (grid_cells rows) -> forallb (fun c => cell_ok keep (snd c)) (grid_cells rows) = true ->
    forallb (fun r => match row_cells r with [] => false | _ => true end) rows = true -> agrees attrs e ->
    exists acc force' dang', loop ts (st TNewLineChar attrs bst [] [n] keep false force close dang a)
      = Ok (st TNewLineChar attrs (acc ++ bst) [] [n] keep false force' (close || cell_macros (grid_cells rows)) dang' a)
      /\ map unplaced (rev acc) = map (cell_block keep e) (grid_cells rows) /\ Forall2 (cell_on (snd here)) (row_lines n0 rows) (rev acc).
  Proof.
    induction rows as [|[l gap] rows IH]; intros ts n0 attrs e bst n keep force close dang a W Ln S Hc Hn A.
    - inversion W. subst. exists [], force, dang. cbn. rewrite orb_false_r. split; [reflexivity|]. split; [reflexivity|constructor].
    - cbn [map List.concat row_words] in W. apply words_split in W as (t1 & t2 & -> & W1 & W2). apply words_split in W1 as (t3 & t4 & -> & W3 & W4).
      apply words_cons in W4 as (t5 & t6 & -> & W5 & W6). unfold grid_cells in S, Hc. cbn [map List.concat row_cells] in S, Hc. apply Forall_app in S as [S1 S2].
      rewrite forallb_app in Hc. apply andb_prop in Hc as [H1 H2]. cbn [forallb row_cells] in Hn. apply andb_prop in Hn as [Hl Hn].
      apply linear_app in Ln as [Ln Ln2]. rewrite fold_left_app in Ln2. apply linear_app in Ln as [Ln3 Ln4].
      destruct (cells_step l t3 n0 TNewLineChar attrs e bst n keep force close dang a W3 Ln3 S1 H1 A) as (acc1 & l1 & f1 & d1 & E1 & B1 & O1 & N1 & F1).
      rewrite F1 in Ln2, Ln4. cbn [linear fold_left] in Ln2, Ln4. destruct Ln4 as [_ Ln4].
      assert (next_line n0 t5 = S n0) as E5 by (unfold next_line; now rewrite (word_type _ _ W5)). rewrite E5 in Ln2, Ln4.
      destruct (soft_newline w fuel here resolve t5 None l1 attrs (acc1 ++ bst) [] [n] keep false f1 (close || cell_macros l) d1 a W5) as (d5 & E6 & _).
      { rewrite N1; [reflexivity|]. intros ->. discriminate Hl. }
      assert (exists b acc1', acc1 = b :: acc1' /\ is_list_item b = false /\ is_dlist_item b = false) as (b & acc1' & Ea & Hb1 & Hb2).
      { destruct acc1 as [|b acc1']; [destruct l; discriminate|]. exists b, acc1'. split; [reflexivity|].
        assert (In (unplaced b) (map unplaced (rev (b :: acc1')))) as H by (apply in_map; apply in_rev; rewrite rev_involutive; now left).
        rewrite B1 in H. apply in_map_iff in H as (c & H & _). unfold cell_block in H. destruct b as [[] ? ? ?]; try discriminate H. split; reflexivity. }
      rewrite Ea in E6. cbn [app] in E6.
      destruct (gap_step w fuel here resolve gap t6 (S n0) attrs b (acc1' ++ bst) n keep f1 (close || cell_macros l) d5 a W6 Ln4 Hb1 Hb2) as (f6 & d6 & E7 & F6). rewrite F6 in Ln2.
      change (b :: acc1' ++ bst) with ((b :: acc1') ++ bst) in E6, E7. rewrite <- Ea in E6, E7.
      destruct (IH t2 (S n0 + row_gap (Row l gap)) attrs e (acc1 ++ bst) n keep f6 (close || cell_macros l) d6 a W2 Ln2 S2 H2 Hn A) as (acc2 & f8 & d8 & E8 & B8 & O8).
      exists (acc2 ++ acc1), f8, d8. split; [|split].
      + rewrite <- !app_assoc. apply (loop_join w fuel _ _ _ _ _ E1). apply (loop_join w fuel [t5] _ _ _ _ E6). apply (loop_join w fuel _ _ _ _ _ E7). rewrite E8.
        unfold grid_cells, cell_macros. cbn [map List.concat row_cells]. now rewrite existsb_app, app_assoc, orb_assoc.
      + rewrite rev_app_distr, map_app, B1, B8. unfold grid_cells. cbn [map List.concat row_cells]. now rewrite map_app.
      + rewrite rev_app_distr. cbn [row_lines row_cells]. apply Forall2_app; [|exact O8].
        assert (List.length l = List.length (rev acc1)) as El by (apply (f_equal (@List.length _)) in B1; now rewrite !map_length in B1).
        apply Forall_rev in O1. revert O1 El. clear. generalize (rev acc1) as k. induction l as [|x l IHl]; intros [|y k] O El; try discriminate; constructor; inversion O; subst; auto.
  Qed.
End Cells.
