(** * Tables of scripts that can be shown *)
From Verif Require NoteProofs.
From Verif Require Import Base World Location Token Scanner Meta Inline Block Asg Json Html Parser SpecScan SpecLex SpecDoc SpecArticle
  SpecArticleHtml TreeInd ScriptText ScriptBlocks ScriptCells ScriptWhole ScriptHtml SpecScript SpecScriptHtml.
Local Open Scope char_scope.
Local Open Scope nat_scope.
Local Arguments bs : simpl never.
Local Arguments dec : simpl never.

(** ** Tables that count their own columns *)
Definition fit_flow (l : list (bool * block)) : Prop := Forall (fun x => tables_fit (snd x) = true) l.
Lemma fit_wrapped me p : tables_fit (wrapped me p) = true.
Proof. unfold wrapped. destruct (match me with Some m => _ | None => false end); reflexivity. Qed.
Lemma fit_place b g : tables_fit b = true -> fit_flow (g_flow g) -> fit_flow (g_flow (place b g)).
Proof. intros B G. apply Forall_app. split; [exact G|]. repeat constructor. exact B. Qed.
Lemma fit_land b g : tables_fit b = true -> fit_flow (g_flow g) -> fit_flow (g_flow (land b g)).
Proof.
  intros B G. unfold land. destruct (g_flag g && g_open g); [|now apply fit_place].
  apply Forall_app. split; [exact G|]. repeat constructor. exact B.
Qed.
Lemma fit_leaf c x g : fit_flow (g_flow g) -> fit_flow (g_flow (leaf_page c x g)).
Proof.
  intros G. destruct x as [|? l|[|[[] ?] l]| | | | | |]; cbn [leaf_page]; try exact G.
  - apply fit_land; [apply fit_wrapped|exact G].
  - apply fit_land; [|exact G]. cbn [tables_fit]. induction l; [reflexivity|]. cbn [map forallb tables_fit]. exact IHl.
  - apply fit_land; [|exact G]. cbn [tables_fit forallb term_block andb]. induction l; [reflexivity|]. cbn [map forallb tables_fit term_block andb]. exact IHl.
  - apply fit_land; [reflexivity|exact G].
  - apply fit_land; [reflexivity|exact G].
Qed.
Lemma fit_leaves l : forall g, fit_flow (g_flow g) -> fit_flow (g_flow (fold_left (fun h x => leaf_page (fst x) (snd x) h) l g)).
Proof. induction l as [|(c, x) l IH]; intros g G; [exact G|]. apply IH. now apply fit_leaf. Qed.
Lemma fit_all l : fit_flow l -> forallb tables_fit (map snd l) = true.
Proof. induction 1 as [|x l H F IH]; [reflexivity|]. cbn [map forallb]. now rewrite H, IH. Qed.
Lemma fit_box l last h : fit_flow (g_flow h) -> fit_flow (g_flow (box_page l last h)).
Proof. intros H. unfold box_page. pose proof (fit_leaves l h H) as H'. destruct last; [exact H'|]. now apply fit_place. Qed.
Lemma fit_bounds l : forall g, forallb tables_fit (bound_blocks l g) = true.
Proof.
  induction l as [|[title b x last] l IH]; intros g; [reflexivity|]. cbn [bound_blocks forallb]. rewrite IH, andb_true_r. unfold bound_block.
  set (h := box_page _ _ _). assert (fit_flow (g_flow h)) as H by (apply fit_box; constructor).
  cbn [tables_fit]. rewrite (fit_all _ H). now destruct b.
Qed.
Lemma fit_items l : forall g, forallb tables_fit (item_blocks l g) = true.
Proof. induction l as [|x l IH]; intros g; [reflexivity|]. cbn [item_blocks forallb]. rewrite IH, andb_true_r. unfold item_block. cbn [tables_fit andb]. apply fit_bounds. Qed.
Lemma dec_decimal n : forallb is_digit (dec n) = true /\ decimal (dec n) = N.of_nat n /\ dec n <> [].
Proof.
  assert (digits_val 0 (dec n) = Some (N.of_nat n)) as E by (apply NoteProofs.dec_fuel_val; lia).
  assert (forallb is_digit (dec n) = true) as D.
  { revert E. generalize 0%N. induction (dec n) as [|c l IH]; intros m E; [reflexivity|]. cbn [digits_val forallb] in *. destruct (is_digit c); [|discriminate]. cbn [andb]. eapply IH, E. }
  split; [exact D|]. rewrite digits_decimal in E by exact D. fold (decimal (dec n)) in E. split; [congruence|].
  unfold dec. cbn [dec_fuel]. destruct (n <? 10); [discriminate|]. destruct (dec_fuel n (n / 10)); discriminate.
Qed.
Lemma columns_digits v : forallb is_digit v = true -> columns v = v.
Proof.
  intros F. unfold columns. assert (existsb (Ascii.eqb ",") v = false) as ->.
  { induction v as [|c v IH]; [reflexivity|]. cbn [existsb forallb] in *. apply andb_prop in F as [F1 F2]. rewrite IH by exact F2.
    destruct (Ascii.eqb "," c) eqn:E; [|reflexivity]. apply Ascii.eqb_eq in E. subst. discriminate. }
  destruct v as [|a [|b [|]]]; try reflexivity.
  - cbn [forallb] in F. destruct b as [[] [] [] [] [] [] [] []]; try reflexivity. apply andb_prop in F as [_ F]. discriminate.
  - cbn [forallb] in F. destruct b as [[] [] [] [] [] [] [] []]; reflexivity.
Qed.
Lemma counted_lookup m n : lookup (bs "cols") (m_attrs (counted (with_attr (bs "cols") (dec n) m))) = Some (dec n).
Proof.
  unfold counted. cbn [with_attr m_attrs]. rewrite lookup_enter. cbn [with_attr m_attrs]. rewrite lookup_enter.
  now rewrite columns_digits by apply dec_decimal.
Qed.
Lemma counted_options m : m_options (counted m) = m_options m.
Proof. unfold counted. destruct (lookup (bs "cols") (m_attrs m)); reflexivity. Qed.
Lemma fit_told m n k : (N.of_nat n < 2 ^ 63)%N -> 1 <= n <= k -> lookup (bs "cols") (m_attrs m) = Some (dec n) -> table_fits (Some m) k = true.
Proof.
  intros L (A & B) E. unfold table_fits, columns_told. rewrite E. destruct (dec_decimal n) as (D & V & N). destruct (dec n) as [|c r] eqn:Ed; [congruence|].
  rewrite D, V. cbn [andb]. apply N.ltb_lt in L. rewrite L. apply andb_true_intro. split; [apply N.leb_le; lia|].
  apply orb_true_intro. right. apply N.leb_le. lia.
Qed.
Lemma fit_grid gap rows r k : (N.of_nat (List.length (row_cells r)) < 2 ^ 63)%N -> 2 <= List.length (row_cells r) ->
  k = List.length (grid_cells (r :: rows)) -> table_fits (grid_meta gap (r :: rows) None) k = true.
Proof.
  intros L A K. assert (List.length (row_cells r) <= k) as B by (subst k; unfold grid_cells; cbn [map List.concat]; rewrite app_length; lia).
  unfold grid_meta. cbn [map]. destruct (grid_cells (r :: rows)) as [|c1 [|c2 cs]]; [cbn in K; lia|cbn in K; lia|].
  destruct (row_cells r) as [|r1 [|r2 rs]] eqn:Er; [cbn in A; lia|cbn in A; lia|]. rewrite <- Er in *. cbv zeta.
  assert (forall x, cols_given (if gap then blank else mkMeta (m_attrs blank) x (m_roles blank) (m_inline blank) (m_type blank) []) = false) as G by (intros; destruct gap; reflexivity).
  rewrite G. eapply fit_told; [exact L| |apply counted_lookup]. lia.
Qed.
Lemma fit_piece k c p g : counts_itself (c, p) -> piece_ok k c p -> fit_flow (g_flow g) -> fit_flow (g_flow (piece_page c p g)).
Proof.
  intros T (_ & K) G. destruct p; cbn [piece_page].
  - now apply fit_leaf.
  - apply fit_land; [|now rewrite (proj2 (items_flow _ _))]. cbn [tables_fit andb]. apply fit_items.
  - apply Forall_app. split; [exact G|]. repeat constructor.
  - apply Forall_app. split; [exact G|]. repeat constructor. cbn [snd]. change (true && (tables_fit (page_para g (dress c) (waits (g_keep g) c) l) && true) = true). unfold page_para. now rewrite fit_wrapped.
  - apply fit_place; [reflexivity|exact G].
  - apply fit_place; [reflexivity|exact G].
  - set (h := box_page _ _ _). assert (fit_flow (g_flow h)) as H by (apply fit_box; constructor).
    apply fit_land; [|exact G]. cbn [tables_fit]. rewrite (fit_all _ H). now destruct b.
  - apply fit_land; [|exact G]. cbn [tables_fit grid_block]. destruct T as [T1 T2]. cbn [fst] in T1. subst c. destruct rows as [|r rows]; [contradiction|].
    assert (title_rest g (dress []) title = None) as -> by (destruct title; [apply rest_none|reflexivity]).
    cbn [worn]. rewrite fit_grid; [|apply T2|apply T2|apply map_length]. cbn [andb].
    induction (grid_cells (r :: rows)); [reflexivity|]. cbn [map forallb tables_fit andb]. exact IHl.
Qed.
Lemma fit_pieces l : forall g, Forall counts_itself l -> pieces_ok g l -> fit_flow (g_flow g) -> fit_flow (g_flow (pieces_page l g)).
Proof. induction l as [|(c, p) l IH]; intros g C F G; [exact G|]. inversion_clear C as [|? ? C1 C2]. destruct F as [H F']. apply IH; [exact C2|exact F'|]. eapply fit_piece; eassumption. Qed.
Lemma fit_script d : Forall counts_itself (sc_pieces d) -> script_ok d -> fit_flow (g_flow (script_page d)).
Proof.
  intros C (_ & F & _). unfold script_page. pose proof (fit_pieces _ (first_page d) C F (Forall_nil _)) as H.
  destruct (sc_last d) as [(c, (l, ended))|]; [|exact H]. apply fit_place; [apply fit_wrapped|exact H].
Qed.
Lemma fit_split f l : fit_flow l -> let (a, b) := split_while f l in fit_flow a /\ fit_flow b.
Proof.
  induction 1 as [|x l H F IH]; [split; constructor|]. cbn [split_while]. destruct (f x); [|split; constructor; auto; constructor; auto].
  destruct (split_while f l) as (a, b). destruct IH. split; [now constructor|assumption].
Qed.
Lemma fit_shelve l : fit_flow l -> fit_flow (shelve l).
Proof.
  induction 1 as [|(o, [h m k loc]) l H F IH]; [constructor|]. destruct h; cbn [shelve]; try (constructor; assumption).
  pose proof (fit_split (beneath level) _ IH) as S. destruct (split_while (beneath level) (shelve l)) as (mine, rest). destruct S as (A & B).
  constructor; [|exact B]. cbn [snd tables_fit] in *. apply andb_true_iff in H as (_ & H2). now rewrite forallb_app, H2, fit_all by exact A.
Qed.
Lemma fit_refer ns b : tables_fit (refer_block ns b) = tables_fit b.
Proof.
  induction b as [h m k loc IH] using block_ind'. cbn [refer_block tables_fit].
  assert (forallb tables_fit (map (refer_block ns) k) = forallb tables_fit k) as E
    by (induction IH as [|x l H F IHl]; [reflexivity|]; cbn [map forallb]; now rewrite H, IHl).
  rewrite E, map_length. destruct h; reflexivity.
Qed.
Lemma fit_blocks d : Forall counts_itself (sc_pieces d) -> script_ok d -> forallb tables_fit (script_blocks d) = true.
Proof.
  intros C H. unfold script_blocks, referred. set (l := outline _). assert (forallb tables_fit l = true) as L.
  { apply fit_all, fit_shelve, fit_script; assumption. }
  generalize (names l). intros ns. clear C H. induction l as [|b l IH]; [reflexivity|]. cbn [map forallb] in *.
  rewrite fit_refer. apply andb_true_iff in L as (-> & L). now apply IH.
Qed.

