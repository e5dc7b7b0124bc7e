(** * Lemmas: which styles of the docx output are defined *)
From Verif Require Import Base World Location Token Meta Inline Block Asg Docx SpecDocx ScanLemmas TreeInd SpecPage.
From Verif Require PageProofs DocxProofs.
Local Open Scope char_scope.
Local Open Scope nat_scope.

Definition thematic : bytes := bs "ThematicBreak".
(** the styles that the items name *)
Definition item_styles (i : item) : list bytes :=
  match i with
  | Paragraph s _ _ _ => [s]
  | Table rows _ => map (fun _ => bs "Table") (List.concat rows)
  | Picture _ => []
  end.
Lemma cells_style l : forall lb ps, typed_cells lb l ps -> map pa_style ps = map (fun _ => bs "Table") l.
Proof.
  induction l as [|x l IH]; intros lb [|p ps] H; try easy. cbn [typed_cells map] in *. destruct H as (S & _ & _ & _ & H). now rewrite S, (IH _ _ H).
Qed.
Lemma typeset_styles l : forall lb b, typeset lb l b -> flat_map para_styles b = flat_map item_styles l.
Proof.
  induction l as [|i l IH]; intros lb [|x b] H; try easy; [destruct i; exact (False_ind _ H)|].
  destruct i as [s n f y|rows cells|t]; destruct x as [p|ps|t']; cbn [typeset] in H; try easy; cbn [flat_map item_styles para_styles].
  - destruct H as (-> & _ & _ & _ & H). now rewrite (IH _ _ H).
  - destruct H as (_ & C & H). now rewrite (IH _ _ H), (cells_style _ _ _ C).
  - destruct H as (_ & H). now rewrite (IH _ _ H).
Qed.
(** the names that the events set *)
Fixpoint names (seen : nat) (l : list event) : list bytes :=
  match l with
  | [] => []
  | Style name _ :: r => name :: names seen r
  | Opened LUnordered :: r => bs "ListParagraph" :: names (S seen) r
  | Opened LOrdered :: r => (bs "NumberedListParagraph_" ++ numeral (S seen)) :: names (S seen) r
  | _ :: r => names seen r
  end.
Lemma names_app a : forall n b, names n (a ++ b) = names n a ++ names (n + lists a) b.
Proof.
  induction a as [|e a IH]; intros n b; [cbn; now rewrite Nat.add_0_r|]. cbn [app names]. destruct e as [nm base|[]| | | |]; cbn [app]; rewrite IH; unfold lists in *; cbn [filter List.length];
    try reflexivity; now rewrite Nat.add_succ_r.
Qed.
Lemma style_named before : style_at before = bs "Normal" \/ In (style_at before) (names 0 (rev before)).
Proof.
  induction before as [|e r IH]; [now left|]. cbn [rev]. rewrite names_app. cbn [style_at Nat.add]. rewrite PageProofs.lists_rev.
  destruct e as [nm base|[]| | | |]; try (right; apply in_or_app; right; left; reflexivity); (destruct IH as [IH|IH]; [left; exact IH|right; apply in_or_app; left; exact IH]).
Qed.
(** a table comes with its style *)
Definition grids (l : list event) : Prop := forall c x, In (Grid c x) l -> In (bs "Table") (names 0 l).
Lemma names_from a : forall n m, In (bs "Table") (names n a) -> In (bs "Table") (names m a).
Proof.
  induction a as [|e a IH]; intros n m H; [exact H|]. destruct e as [nm base|[]| | | |]; cbn [names] in *; try exact (IH _ _ H).
  - destruct H as [H|H]; [now left|right; exact (IH _ _ H)].
  - destruct H as [H|H]; [discriminate H|right; exact (IH _ _ H)].
  - destruct H as [H|H]; [discriminate H|right; exact (IH _ _ H)].
Qed.
Lemma grids_app a b : grids a -> grids b -> grids (a ++ b).
Proof.
  intros A B c x H. rewrite names_app. apply in_app_or in H as [H|H]; apply in_or_app; [left; exact (A c x H)|right; exact (names_from b 0 _ (B c x H))].
Qed.
Lemma grids_none a : (forall c x, ~ In (Grid c x) a) -> grids a.
Proof. intros H c x I. elim (H c x I). Qed.
(** a thematic break comes with its paragraph *)
Fixpoint breaks_ok (l : list event) : bool :=
  match l with
  | Style n _ :: r => (negb (beqb n thematic) || match r with Line _ _ :: _ => true | _ => false end) && breaks_ok r
  | _ :: r => breaks_ok r
  | [] => true
  end.
Lemma breaks_app a b : breaks_ok a = true -> breaks_ok b = true -> breaks_ok (a ++ b) = true.
Proof.
  intros A B. induction a as [|e a IH]; [exact B|]. cbn [app]. destruct e as [n base| | | | |]; cbn [breaks_ok] in *; auto.
  apply andb_prop in A as (A & A'). rewrite (IH A'), andb_true_r. apply orb_prop in A as [A|A]; [now rewrite A|]. destruct a as [|[] a]; try discriminate A. now rewrite orb_true_r.
Qed.
Definition shaped (l : list event) : Prop := grids l /\ breaks_ok l = true.
Lemma shaped_app a b : shaped a -> shaped b -> shaped (a ++ b).
Proof. intros (A & A') (B & B'). split; [now apply grids_app|now apply breaks_app]. Qed.
Lemma shaped_concat {A} (f : A -> list event) l : Forall (fun x => shaped (f x)) l -> shaped (List.concat (map f l)).
Proof. induction 1; [split; [intros c x []|reflexivity]|]. cbn [map List.concat]. now apply shaped_app. Qed.
Ltac small := split; [apply grids_none; intros ? ? H; cbn in H; decompose [or] H; easy|vm_compute; reflexivity].
Lemma shaped_style n b : bs n <> thematic -> shaped [style n b].
Proof.
  intros N. split; [apply grids_none; intros c x [H|[]]; discriminate H|]. unfold style. cbn [breaks_ok]. now rewrite (proj2 (ScanLemmas.beqb_neq _ _) N).
Qed.
Lemma shaped_line it l : shaped [Line it l].
Proof. split; [apply grids_none; intros c x [H|[]]; discriminate H|reflexivity]. Qed.
Lemma shaped_cons e l : shaped [e] -> shaped l -> shaped (e :: l).
Proof. exact (shaped_app [e] l). Qed.
Lemma shaped_normal : shaped [normal].
Proof. exact (shaped_style "Normal" "" ltac:(discriminate)). Qed.
Lemma shaped_nil : shaped [].
Proof. split; [intros c x []|reflexivity]. Qed.
Ltac shape := repeat first [ assumption | apply shaped_nil | apply shaped_app | apply shaped_normal | apply shaped_line
  | (apply shaped_style; discriminate) | (apply shaped_cons) ].
Lemma shaped_boxed name v t inner : bs (name ++ " Title")%string <> thematic -> bs (name ++ " Text")%string <> thematic -> shaped inner -> shaped (boxed name v t inner).
Proof.
  intros A B I. unfold boxed. assert (shaped [style (name ++ " Title") "Title"]) as T by (apply shaped_style; exact A). assert (shaped [style (name ++ " Text") "Normal"]) as X by (apply shaped_style; exact B).
  apply shaped_app; [destruct v; shape|]. apply shaped_app; [destruct t; shape|]. apply shaped_app; [exact X|shape].
Qed.
Lemma shaped_events b : shaped (events b).
Proof.
  induction b as [h m k loc IH] using block_ind'.
  assert (shaped (List.concat (map events k))) as K by now apply shaped_concat.
  cbn [events]. destruct h as [i t n|v|mk p| |t p|[]|t c|nm f d l|nm v d t|l].
  - destruct t; [exact K|]. apply shaped_app; [|exact K]. apply shaped_cons; [|shape].
    split; [apply grids_none; intros c x [H|[]]; discriminate H|]. cbn [breaks_ok]. reflexivity.
  - apply shaped_cons; [|exact K]. split; [apply grids_none; intros c x [H|[]]; discriminate H|reflexivity].
  - apply shaped_cons; [apply shaped_line|]. destruct k as [|x k]; [apply shaped_nil|]. apply shaped_cons; [apply shaped_style; discriminate|]. apply shaped_app; [|apply shaped_normal].
    split; [apply grids_none; intros c y H; apply in_map_iff in H as (z & E & _); discriminate E|]. clear; induction (x :: k) as [|z l IHl]; [reflexivity|exact IHl].
  - exact K.
  - shape.
  - split; [apply grids_none; intros c x [H|[]]; discriminate H|reflexivity].
  - split; [apply grids_none; intros c x [H|[H|[]]]; discriminate H|reflexivity].
  - split; [apply grids_none; intros c0 x [H|[]]; discriminate H|reflexivity].
  - destruct nm; shape.
  - destruct nm.
    + apply shaped_boxed; [discriminate|discriminate|exact K].
    + apply shaped_boxed; [discriminate|discriminate|exact K].
    + apply shaped_boxed; [discriminate|discriminate|exact K].
    + exact K.
    + apply shaped_cons; [apply shaped_style; discriminate|]. apply shaped_app; [exact K|]. apply shaped_app; [|shape]. destruct (attribute "attribution" m); shape.
    + split; [intros c x _; left; reflexivity|reflexivity].
    + apply shaped_nil.
  - apply shaped_nil.
Qed.
Lemma shaped_graph a : shaped (graph_events a).
Proof.
  unfold graph_events. apply shaped_app; [destruct (a_header a) as [h|]; [unfold title_events; destruct (hd_title h); shape|apply shaped_nil]|].
  apply shaped_concat. apply Forall_forall. intros b _. apply shaped_events.
Qed.

(** ** The styles used, and those defined *)
Lemma page_styles l : forall before s, In s (flat_map item_styles (page before l)) ->
  s = bs "Normal" \/ In s (names 0 (rev before ++ l)) \/ (s = bs "Table" /\ exists c x, In (Grid c x) l).
Proof.
  induction l as [|e l IH]; intros before s H; [destruct H|]. cbn [page] in H. rewrite flat_map_app in H. apply in_app_or in H as [H|H].
  - destruct e as [n b|v| |it x|c x|t]; cbn [shown_as flat_map item_styles app] in H; try easy.
    + destruct H as [<-|[]]. destruct (style_named before) as [E|E]; [now left|right; left]. rewrite names_app. apply in_or_app. now left.
    + destruct (columns c); [|destruct H]. cbn [flat_map item_styles app] in H. rewrite app_nil_r in H. apply in_map_iff in H as (y & <- & _). right; right. split; [reflexivity|]. exists c, x. now left.
  - destruct (IH (e :: before) s H) as [E|[E|(E & c & x & I)]]; [now left|right; left|right; right].
    + cbn [rev] in E. rewrite <- app_assoc in E. exact E.
    + split; [exact E|]. exists c, x. now right.
Qed.
Lemma thematic_used l : breaks_ok l = true -> forall before base, In (Style thematic base) l -> In thematic (flat_map item_styles (page before l)).
Proof.
  induction l as [|e l IH]; intros B before base H; [destruct H|]. cbn [page]. rewrite flat_map_app. apply in_or_app. destruct H as [->|H].
  - right. cbn [breaks_ok] in B. apply andb_prop in B as (B & _). rewrite ScanLemmas.beqb_refl in B. destruct l as [|[] l]; try discriminate B. now left.
  - right. apply (IH ltac:(destruct e; cbn [breaks_ok] in B; try exact B; now apply andb_prop in B) (e :: before) base H).
Qed.
Lemma thematic_named l : forall n, In thematic (names n l) -> exists base, In (Style thematic base) l.
Proof.
  induction l as [|e l IH]; intros n H; [destruct H|]. destruct e as [nm base|[]| | | |]; cbn [names] in H.
  all: try (destruct (IH _ H) as (b & I); exists b; now right).
  - destruct H as [->|H]; [exists base; now left|]. destruct (IH _ H) as (b & I). exists b. now right.
  - destruct H as [H|H]; [discriminate H|]. destruct (IH _ H) as (b & I). exists b. now right.
  - destruct H as [H|H]; [discriminate H|]. destruct (IH _ H) as (b & I). exists b. now right.
Qed.
Lemma entered l : forall n s, In s (names n l) -> s = thematic \/ In s (map fst (entries n l)).
Proof.
  assert (forall name base, name = thematic \/ fst (entry name base) = name) as E.
  { intros name base. unfold entry. destruct (beqb name (bs "ThematicBreak")) eqn:Q; [left; exact (proj1 (ScanLemmas.beqb_eq _ _) Q)|now right]. }
  induction l as [|e l IH]; intros n s H; [destruct H|]. destruct e as [nm base|[]| | | |]; cbn [names entries map] in *; try exact (IH _ _ H).
  - destruct H as [<-|H]; [destruct (E nm base) as [->|Q]; [now left|right; left; exact Q]|]. destruct (IH _ _ H) as [->|I]; [now left|right; right; exact I].
  - destruct H as [<-|H]; [right; left; reflexivity|]. destruct (IH _ _ H) as [->|I]; [now left|right; right; exact I].
  - destruct H as [<-|H]; [right; left; reflexivity|]. destruct (IH _ _ H) as [->|I]; [now left|right; right; exact I].
Qed.
Lemma first_all l : forall known s, In s (map fst l) -> In s known \/ In s (map fst (first_of_each known l)).
Proof.
  induction l as [|x l IH]; intros known s H; [destruct H|]. cbn [first_of_each]. destruct (in_dec _ (fst x) known) as [I|N].
  - destruct H as [<-|H]; [now left|exact (IH known s H)].
  - destruct H as [<-|H]; [right; now left|]. destruct (IH (fst x :: known) s H) as [[<-|I]|I]; [right; now left|now left|right; now right].
Qed.
Lemma first_incl l : forall known, incl (first_of_each known l) l.
Proof.
  induction l as [|x l IH]; intros known; [easy|]. cbn [first_of_each]. destruct (in_dec _ (fst x) known); intros y Y.
  - right. exact (IH _ y Y).
  - destruct Y as [<-|Y]; [now left|right; exact (IH _ y Y)].
Qed.
Lemma first_once l : forall known, NoDup (map fst (first_of_each known l)) /\ forall s, In s known -> ~ In s (map fst (first_of_each known l)).
Proof.
  induction l as [|x l IH]; intros known; [split; [constructor|easy]|]. cbn [first_of_each]. destruct (in_dec _ (fst x) known) as [I|N]; [apply IH|].
  destruct (IH (fst x :: known)) as (A & B). cbn [map]. split; [constructor; [apply B; now left|exact A]|]. intros s K [<-|H]; [exact (N K)|exact (B s (or_intror K) H)].
Qed.
Lemma not_thematic l : forall n, ~ In thematic (map fst (entries n l)).
Proof.
  assert (forall name base, fst (entry name base) <> thematic) as E.
  { intros name base. unfold entry. destruct (beqb name (bs "ThematicBreak")) eqn:Q; [discriminate|]. cbn [fst]. intros ->. exact (Bool.diff_true_false (eq_trans (eq_sym (ScanLemmas.beqb_refl thematic)) Q)). }
  induction l as [|e l IH]; intros n H; [destruct H|]. destruct e as [nm base|[]| | | |]; cbn [entries map] in H; try exact (IH _ H).
  all: destruct H as [H|H]; [exact (E _ _ H)|exact (IH _ H)].
Qed.
Definition basics : list (bytes * option bytes) := map (fun x => entry (bs (fst x)) (bs (snd x))) [("Normal", ""); ("No Spacing", ""); ("Title", "Normal")]%string.
Lemma table_in l s : In s (map fst (basics ++ entries 0 l)) -> In s (map fst (style_table l)).
Proof. intros H. destruct (first_all _ [] s H) as [[]|I]. exact I. Qed.
Lemma basic_in l s : In s [bs "Normal"; bs "No Spacing"; bs "Title"] -> In s (map fst (style_table l)).
Proof. intros H. apply table_in. rewrite map_app. apply in_or_app. left. exact H. Qed.
Definition based (b : bytes) : Prop := b = [] \/ In b [bs "Normal"; bs "No Spacing"; bs "Title"].
Definition bases (l : list event) : Prop := Forall (fun e => match e with Style _ b => based b | _ => True end) l.
Lemma bases_entries l : bases l -> forall n, Forall (fun e => match snd e with Some b => In b [bs "Normal"; bs "No Spacing"; bs "Title"] | None => True end) (entries n l).
Proof.
  assert (forall name b, based b -> match snd (entry name b) with Some b => In b [bs "Normal"; bs "No Spacing"; bs "Title"] | None => True end) as E.
  { intros name b [->|H]; [exact Logic.I|]. unfold entry. cbn [snd]. destruct b; [exact Logic.I|exact H]. }
  induction 1 as [|e l B _ IH]; intros n; [constructor|]. destruct e as [nm base|[]| | | |]; cbn [entries]; auto; constructor; auto; apply E; first [exact B | (right; cbn [In]; tauto)].
Qed.
Lemma bases_app a b : bases a -> bases b -> bases (a ++ b).
Proof. apply Forall_app_2 || (intros A B; apply Forall_app; now split). Qed.
Lemma bases_events b : bases (events b).
Proof.
  assert (forall n b, based (bs b) -> bases [style n b]) as St by (intros n s H; constructor; [exact H|constructor]).
  assert (based (bs "Normal")) as N by (right; now left). assert (based (bs "No Spacing")) as NS by (right; right; now left). assert (based (bs "Title")) as Ti by (right; right; right; now left).
  assert (based []) as Em by now left.
  assert (forall it l, bases [Line it l]) as Li by (intros; constructor; [exact Logic.I|constructor]).
  assert (bases [normal]) as No by (constructor; [exact Em|constructor]).
  assert (bases []) as Ni by constructor.
  assert (forall e l, bases [e] -> bases l -> bases (e :: l)) as Co by (intros e l A B; exact (bases_app [e] l A B)).
  induction b as [h m k loc IH] using block_ind'.
  assert (bases (List.concat (map events k))) as K.
  { clear - IH. induction IH; [constructor|]. cbn [map List.concat]. now apply bases_app. }
  assert (forall name v t, bases (boxed name v t (List.concat (map events k)))) as Bo.
  { intros name v t. unfold boxed. apply bases_app; [destruct v; repeat (apply Co; auto); auto|]. apply bases_app; [destruct t; repeat (apply Co; auto); auto|]. apply bases_app; [auto|]. now apply bases_app. }
  cbn [events]. destruct h as [i t n|v|mk p| |t p|[]|t c|nm f d l|nm v d t|l].
  - destruct t; [exact K|]. apply bases_app; [|exact K]. apply Co; [|apply Co; auto]. constructor; [exact N|constructor].
  - apply Co; [|exact K]. constructor; [exact Logic.I|constructor].
  - apply Co; [apply Li|]. destruct k as [|x k]; [exact Ni|]. apply Co; [auto|]. apply bases_app; [|exact No]. apply Forall_map, Forall_forall. intros; exact Logic.I.
  - exact K.
  - apply bases_app; [|exact K]. repeat (apply Co; auto).
  - constructor; [exact Logic.I|constructor].
  - apply Co; auto.
  - constructor; [exact Logic.I|constructor].
  - destruct nm; repeat (apply Co; auto); auto.
  - destruct nm; auto.
    + apply Co; [auto|]. apply bases_app; [exact K|]. apply bases_app; [|exact No]. destruct (attribute "attribution" m); auto.
    + apply Co; [auto|]. constructor; [exact Logic.I|constructor].
  - exact Ni.
Qed.
Lemma bases_graph a : bases (graph_events a).
Proof.
  unfold graph_events. apply bases_app.
  - destruct (a_header a) as [h|]; [|constructor]. unfold title_events. destruct (hd_title h); [constructor|]. constructor; [right; cbn [In]; tauto|]. constructor; [exact Logic.I|]. constructor; [now left|constructor].
  - induction (a_blocks a) as [|b l IH]; [constructor|]. cbn [map List.concat]. apply bases_app; [apply bases_events|exact IH].
Qed.
Lemma exact_styles img a d : render_docx img a = Ok d ->
  NoDup (map fst (d_styles d)) /\ ~ In thematic (map fst (d_styles d))
  /\ Forall (fun e => match snd e with Some b => In b (map fst (d_styles d)) | None => True end) (d_styles d)
  /\ (forall s, In s (styles_used d) -> s <> thematic -> In s (map fst (d_styles d)))
  /\ (In thematic (styles_used d) <-> In (style "ThematicBreak" "Normal") (graph_events a)).
Proof.
  intros R. pose proof (PageProofs.graph_runs img a) as G. assert (presents (graph_events a) d) as (T & S & _).
  { destruct (first_trouble img (graph_events a)); try (rewrite R in G; discriminate G). destruct G as (d' & E & P). rewrite R in E. injection E as <-. exact P. }
  rewrite S. unfold styles_used. rewrite (typeset_styles _ _ _ T). destruct (shaped_graph a) as (Gr & Br).
  split; [exact (proj1 (first_once _ []))|].
  split.
  { intros I. apply in_map_iff in I as (x & X & I). apply first_incl in I. apply (in_map fst) in I. rewrite X, map_app in I. apply in_app_or in I as [I|I]; [|exact (not_thematic _ _ I)].
    cbn in I. decompose [or] I; discriminate || easy. }
  split.
  { apply Forall_forall. intros e I. apply first_incl in I. apply in_app_or in I as [I|I].
    - cbn [map basics] in I. destruct I as [<-|[<-|[<-|[]]]]; try exact Logic.I. apply basic_in. now left.
    - pose proof (bases_entries _ (bases_graph a) 0) as B. rewrite Forall_forall in B. specialize (B e I). destruct (snd e); [|exact Logic.I]. now apply basic_in. }
  split.
  { intros s U N. destruct (page_styles _ _ _ U) as [->|[I|(-> & c & x & I)]].
    - apply basic_in. now left.
    - destruct (entered _ _ _ I) as [->|E]; [congruence|]. apply table_in. rewrite map_app. apply in_or_app. now right.
    - apply Gr in I. destruct (entered _ _ _ I) as [E|E]; [discriminate E|]. apply table_in. rewrite map_app. apply in_or_app. now right. }
  split.
  - intros U. destruct (page_styles _ _ _ U) as [H|[I|(H & _)]]; try discriminate H. cbn [rev app] in I.
    destruct (thematic_named _ _ I) as (base & J).
    assert (forall l, (forall base, In (Style thematic base) l -> base = bs "Normal") -> forall base, In (Style thematic base) l -> In (style "ThematicBreak" "Normal") l) as Q.
    { intros l Y b0 J0. rewrite (Y _ J0) in J0. exact J0. }
    apply (Q _) with (base := base); [|exact J]. clear. intros base. unfold graph_events.
    assert (forall b, In (Style thematic base) (events b) -> base = bs "Normal") as E.
    { induction b as [h m k loc IH] using block_ind'.
      assert (In (Style thematic base) (List.concat (map events k)) -> base = bs "Normal") as K.
      { intros H. apply in_concat in H as (l & L & H). apply in_map_iff in L as (b & <- & L). rewrite Forall_forall in IH. exact (IH b L H). }
      assert (forall name v t, bs (name ++ " Title")%string <> thematic -> bs (name ++ " Text")%string <> thematic ->
        In (Style thematic base) (boxed name v t (List.concat (map events k))) -> base = bs "Normal") as Bo.
      { intros name v t A B H. unfold boxed in H. rewrite !in_app_iff in H. destruct H as [H|[H|[H|[H|H]]]]; [| | |exact (K H)|].
        - destruct v; [|destruct H]. destruct H as [H|[H|[]]]; [injection H as H _; congruence|discriminate H].
        - destruct t; [destruct H|]. destruct H as [H|[H|[]]]; [injection H as H _; congruence|discriminate H].
        - destruct H as [H|[]]. injection H as H _. congruence.
        - destruct H as [H|[]]. discriminate H. }
      cbn [events]. destruct h as [i t n|v|mk p| |t p|[]|t c|nm f d l|nm v d t|l]; intros H.
      - destruct t; [exact (K H)|]. apply in_app_or in H as [H|H]; [|exact (K H)]. destruct H as [H|[H|[H|[]]]]; discriminate H.
      - destruct H as [H|H]; [discriminate H|exact (K H)].
      - destruct H as [H|H]; [discriminate H|]. destruct k as [|x k]; [destruct H|]. destruct H as [H|H]; [discriminate H|]. apply in_app_or in H as [H|[H|[]]]; [|discriminate H].
        apply in_map_iff in H as (z & H & _). discriminate H.
      - exact (K H).
      - apply in_app_or in H as [H|H]; [|exact (K H)]. destruct H as [H|[H|[H|[H|[]]]]]; discriminate H.
      - destruct H as [H|[]]. discriminate H.
      - destruct H as [H|[H|[]]]; [injection H as <-; reflexivity|discriminate H].
      - destruct H as [H|[]]. discriminate H.
      - destruct nm; destruct H as [H|H]; try discriminate H; try destruct H as [H|H]; try discriminate H; destruct H.
      - destruct nm.
        + revert H. apply Bo; discriminate.
        + revert H. apply Bo; discriminate.
        + revert H. apply Bo; discriminate.
        + exact (K H).
        + destruct H as [H|H]; [discriminate H|]. rewrite !in_app_iff in H. destruct H as [H|[H|[H|[]]]]; [exact (K H)| |discriminate H].
          destruct (attribute "attribution" m); [|destruct H]. destruct H as [H|[]]. discriminate H.
        + destruct H as [H|[H|[]]]; discriminate H.
        + destruct H.
      - destruct H. }
    intros H. apply in_app_or in H as [H|H].
    + destruct (a_header a) as [h|]; [|destruct H]. unfold title_events in H. destruct (hd_title h); [destruct H|]. destruct H as [H|[H|[H|[]]]]; discriminate H.
    + apply in_concat in H as (l & L & H). apply in_map_iff in L as (b & <- & _). exact (E b H).
  - intros I. exact (thematic_used _ Br [] (bs "Normal") I).
Qed.
