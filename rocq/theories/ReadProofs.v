(** * Lemmas for the reader of the JSON output *)
From Coq Require Import Permutation.
From Verif Require ScanLemmas.
From Verif Require Import Base World Location Token Meta Inline Block Asg Json SpecJson TreeInd JsonProofs SpecRead.
Local Open Scope string_scope.
Local Open Scope nat_scope.

Lemma all_map {A B} (f : json -> option A) (g : B -> json) (h : B -> A) l :
  Forall (fun x => f (g x) = Some (h x)) l -> all (map f (map g l)) = Some (map h l).
Proof. induction 1 as [|x l H _ IH]; [reflexivity|]. cbn [map all]. now rewrite H, IH. Qed.
Lemma all_id {A} (f : json -> option A) (g : A -> json) l : (forall x, f (g x) = Some x) -> all (map f (map g l)) = Some l.
Proof. intros H. rewrite (all_map f g id); [now rewrite List.map_id|]. apply Forall_forall. intros x _. apply H. Qed.
Lemma texts l : all (map as_text (map JStr l)) = Some l.
Proof. now apply all_id. Qed.
Lemma place l : read_place (json_of_loc l) = Some l.
Proof.
  destruct l as [a b [|f fs]]; [reflexivity|].
  change ((let? file := all (map as_text (map JStr (f :: fs))) in Some (mkLoc a b file)) = Some (mkLoc a b (f :: fs))). now rewrite texts.
Qed.
Lemma placed l : all (map read_place (map json_of_loc l)) = Some l.
Proof. apply all_id, place. Qed.
Lemma mapped l : read_map (json_of_map l) = Some l.
Proof.
  unfold read_map, json_of_map. rewrite map_map. cbn [as_text fst snd]. induction l as [|[k v] l IH]; [reflexivity|].
  cbn [map all fst snd]. now rewrite IH.
Qed.
Lemma meta m : read_meta (json_of_meta m) = Some (seen_meta m).
Proof.
  change ((let? a := read_map (json_of_map (m_attrs m)) in let? o := all (map as_text (map JStr (m_options m))) in
    let? r := all (map as_text (map JStr (m_roles m))) in let? loc := all (map read_place (map json_of_loc (m_loc m))) in
    Some (mkMeta a o r false None loc)) = Some (seen_meta m)).
  now rewrite mapped, !texts, placed.
Qed.
Definition meta_read (m : option metadata) : option (option metadata) :=
  match m with None => Some None | Some x => let? m := read_meta (json_of_meta x) in Some (Some m) end.
Lemma meta_back m : meta_read m = Some (option_map seen_meta m).
Proof. destruct m; [|reflexivity]. unfold meta_read. now rewrite meta. Qed.
Notation kids f g l := (all (map f (map g l))).
Notation locs l := (kids read_place json_of_loc l).

Lemma inline_back i : read_inline (json_of_inline i) = Some (seen_inline i).
Proof.
  induction i as [v f l m loc o IH|v t l m loc IH|n k v loc|loc] using inline_ind'; try apply (all_map read_inline json_of_inline seen_inline) in IH.
  - assert (read_inline (json_of_inline (ISpan v f l m loc o))
      = (let? p := locs loc in let? k := kids read_inline json_of_inline l in let? m := meta_read m in Some (ISpan v f k m p false))) as ->.
    { destruct v, f, m; reflexivity. }
    now rewrite placed, IH, meta_back.
  - assert (read_inline (json_of_inline (IRef v t l m loc))
      = (let? p := locs loc in let? k := kids read_inline json_of_inline l in let? m := meta_read m in Some (IRef v t k m p))) as ->.
    { destruct v, m; reflexivity. }
    now rewrite placed, IH, meta_back.
  - assert (read_inline (json_of_inline (ILit n k v loc)) = (let? p := locs loc in Some (ILit n k v p))) as ->.
    { destruct n, k; reflexivity. }
    now rewrite placed.
  - change (read_inline (json_of_inline (IBreak loc))) with (let? p := locs loc in Some (IBreak p)). now rewrite placed.
Qed.
Lemma inlines_back l : kids read_inline json_of_inline l = Some (map seen_inline l).
Proof. apply all_map, Forall_forall. intros i _. apply inline_back. Qed.

Lemma block_back b : read_block (json_of_block b) = Some (seen_block b).
Proof.
  induction b as [h m k loc IH] using block_ind'. apply (all_map read_block json_of_block seen_block) in IH.
  destruct h as [id t lv|v|mk p| |ts p|v|t cap|n f d l|n v d t|l].
  - assert (read_block (json_of_block (Blk (HSection id t lv) m k loc))
      = (let? h := (let? t := kids read_inline json_of_inline t in Some (HSection id t lv)) in let? m := meta_read m in let? p := locs loc in
        let? k := kids read_block json_of_block k in Some (Blk h m k p))) as ->.
    { destruct id, m; reflexivity. }
    now rewrite inlines_back, meta_back, placed, IH.
  - assert (read_block (json_of_block (Blk (HList v) m k loc))
      = (let? m := meta_read m in let? p := locs loc in let? k := kids read_block json_of_block k in Some (Blk (HList v) m k p))) as ->.
    { destruct v, m; reflexivity. }
    now rewrite meta_back, placed, IH.
  - assert (read_block (json_of_block (Blk (HListItem mk p) m k loc))
      = (let? h := (let? i := kids read_inline json_of_inline p in Some (HListItem mk i)) in let? m := meta_read m in let? p := locs loc in
        let? k := kids read_block json_of_block k in Some (Blk h m k p))) as ->.
    { destruct k, m; reflexivity. }
    now rewrite inlines_back, meta_back, placed, IH.
  - assert (read_block (json_of_block (Blk HDList m k loc))
      = (let? m := meta_read m in let? p := locs loc in let? k := kids read_block json_of_block k in Some (Blk HDList m k p))) as ->.
    { destruct m; reflexivity. }
    now rewrite meta_back, placed, IH.
  - assert (read_block (json_of_block (Blk (HDListItem ts p) m k loc))
      = (let? h := (let? t := kids read_inline json_of_inline ts in let? i := kids read_inline json_of_inline p in Some (HDListItem t i)) in
        let? m := meta_read m in let? p := locs loc in let? k := kids read_block json_of_block k in Some (Blk h m k p))) as ->.
    { destruct p, k, m; reflexivity. }
    now rewrite !inlines_back, meta_back, placed, IH.
  - assert (read_block (json_of_block (Blk (HBreak v) m k loc)) = (let? p := locs loc in Some (Blk (HBreak v) None [] p))) as ->.
    { destruct v; reflexivity. }
    now rewrite placed.
  - assert (read_block (json_of_block (Blk (HMacro t cap) m k loc))
      = (let? h := (let? c := kids read_inline json_of_inline cap in Some (HMacro t c)) in let? m := meta_read m in let? p := locs loc in Some (Blk h m [] p))) as ->.
    { destruct cap, m; reflexivity. }
    now rewrite inlines_back, meta_back, placed.
  - assert (read_block (json_of_block (Blk (HLeaf n f d l) m k loc))
      = (let? h := (let? c := kids read_inline json_of_inline l in Some (HLeaf n f d c)) in let? m := meta_read m in let? p := locs loc in Some (Blk h m [] p))) as ->.
    { destruct n, f, d, m; reflexivity. }
    now rewrite inlines_back, meta_back, placed.
  - assert (read_block (json_of_block (Blk (HParent n v d t) m k loc))
      = (let? h := (let? c := kids read_inline json_of_inline t in Some (HParent n v d c)) in let? m := meta_read m in let? p := locs loc in
        let? k := kids read_block json_of_block k in Some (Blk h m k p))) as ->.
    { destruct n, v as [[]|], d, t, m; reflexivity. }
    now rewrite inlines_back, meta_back, placed, IH.
  - assert (read_block (json_of_block (Blk (HCell l) m k loc))
      = (let? h := (let? c := kids read_inline json_of_inline l in Some (HCell c)) in let? m := meta_read m in let? p := locs loc in Some (Blk h m [] p))) as ->.
    { destruct m; reflexivity. }
    now rewrite inlines_back, meta_back, placed.
Qed.
Lemma blocks_back l : kids read_block json_of_block l = Some (map seen_block l).
Proof. apply all_map, Forall_forall. intros i _. apply block_back. Qed.

Lemma header_back h : read_header (json_of_header h) = Some (mkHeader (map seen_inline (hd_title h)) (hd_loc h)).
Proof.
  change (read_header (json_of_header h)) with
    (let? t := kids read_inline json_of_inline (hd_title h) in let? p := locs (hd_loc h) in Some (mkHeader t p)).
  now rewrite inlines_back, placed.
Qed.
Lemma document_back a : read_document (json_of_asg a) = Some (seen a).
Proof.
  destruct a as [at_ h di ids b loc].
  assert (read_document (json_of_asg (mkAsg at_ h di ids b loc))
    = (let? a := match at_ with None => Some None | Some m => let? m := read_map (json_of_map m) in Some (Some m) end in
      let? h := match h with None => Some None | Some h => let? h := read_header (json_of_header h) in Some (Some h) end in
      let? b := kids read_block json_of_block b in let? p := locs loc in Some (mkAsg a h [] [] b p))) as ->.
  { destruct at_, h; reflexivity. }
  rewrite blocks_back, placed. destruct at_ as [m|], h as [h|]; try rewrite mapped; try rewrite header_back; reflexivity.
Qed.
Lemma text_back a j : json_text (render_json a) j -> read_document j = Some (seen a).
Proof. intros H. rewrite (json_once _ _ _ H (render_json_text a)). apply document_back. Qed.

(** ** The order of the members *)
Lemma get_in k l v : NoDup (map fst l) -> get k l = Some v <-> In (bs k, v) l.
Proof.
  induction l as [|[k' v'] l IH]; intros N; cbn [get map fst In] in *; [split; [discriminate|tauto]|]. apply NoDup_cons_iff in N as [N1 N2]. specialize (IH N2).
  destruct (beqb k' (bs k)) eqn:E.
  - apply ScanLemmas.beqb_eq in E. subst k'. split; [intros [= ->]; now left|]. intros [[= ->]|I]; [reflexivity|].
    exfalso. apply N1. now apply (in_map fst) in I.
  - apply ScanLemmas.beqb_neq in E. rewrite IH. split; [now right|]. intros [[= -> _]|I]; [congruence|exact I].
Qed.
Lemma get_order k l l' : Permutation l l' -> NoDup (map fst l) -> get k l = get k l'.
Proof.
  intros P N. assert (NoDup (map fst l')) as N' by (eapply Permutation_NoDup; [apply Permutation_map, P|exact N]).
  destruct (get k l) as [v|] eqn:E.
  - symmetry. apply get_in; [exact N'|]. eapply Permutation_in; [exact P|]. now apply get_in.
  - destruct (get k l') as [v|] eqn:E'; [|reflexivity]. apply get_in in E'; [|exact N'].
    apply (Permutation_in _ (Permutation_sym P)) in E'. apply get_in in E'; [congruence|exact N].
Qed.
Lemma sub_get {A} (f : json -> option A) k l : sub f k l = match get k l with Some (JArr js) => all (map f js) | _ => None end.
Proof. induction l as [|[k' v] l IH]; cbn [sub get]; [reflexivity|]. rewrite IH. now destruct (beqb k' (bs k)), v. Qed.
Lemma forallb_order {A} (f : A -> bool) l l' : Permutation l l' -> forallb f l = forallb f l'.
Proof. induction 1; cbn; try congruence. now rewrite !andb_assoc, (andb_comm (f y)). Qed.
Section Order.
  Variables l l' : object.
  Hypothesis (P : Permutation l l') (N : NoDup (map fst l)).
  Lemma o_get k : get k l = get k l'.
  Proof. now apply get_order. Qed.
  Lemma o_sub {A} (f : json -> option A) k : sub f k l = sub f k l'.
  Proof. now rewrite !sub_get, o_get. Qed.
  Lemma o_only ks : only ks l = only ks l'.
  Proof. now apply forallb_order. Qed.
  Lemma o_text k : text k l = text k l'.
  Proof. unfold text. now rewrite o_get. Qed.
  Lemma o_number k : number k l = number k l'.
  Proof. unfold number. now rewrite o_get. Qed.
  Lemma o_says k v : says k v l = says k v l'.
  Proof. unfold says. now rewrite o_text. Qed.
  Lemma o_word {A} (t : list (string * A)) k : word t k l = word t k l'.
  Proof. unfold word. now rewrite o_text. Qed.
  Lemma o_absent {A} (a : A) k o : absent a k l o = absent a k l' o.
  Proof. unfold absent. now rewrite o_get. Qed.
  Lemma o_meta : meta_of l = meta_of l'.
  Proof. unfold meta_of. now rewrite o_get. Qed.
  Lemma o_places : places l = places l'.
  Proof. apply o_sub. Qed.
  Ltac orders := rewrite ?o_says, ?o_only, ?o_meta, ?o_places, ?o_absent, ?o_sub, ?o_get, ?o_number, ?o_text, ?o_word.
  Lemma o_inline : read_inline (JObj l) = read_inline (JObj l').
  Proof. cbn [read_inline]. rewrite !o_word, o_places. destruct (word inline_words "name" l') as [[]|]; [| | | |reflexivity]; now orders. Qed.
  Lemma o_head k : read_head k l = read_head k l'.
  Proof. destruct k; unfold read_head, inlines, inlines_or_none, sub_or_none; rewrite ?o_word; orders; try reflexivity. now destruct (word _ _ l') as [[]|]; orders. Qed.
  Lemma o_block : read_block (JObj l) = read_block (JObj l').
  Proof.
    cbn [read_block]. rewrite o_word. destruct (word block_words "name" l') as [k|]; [|reflexivity].
    assert (block_type k l = block_type k l') as -> by (destruct k; apply o_says). rewrite o_head. orders.
    destruct k; orders; reflexivity.
  Qed.
  Lemma o_document : read_document (JObj l) = read_document (JObj l').
  Proof. cbn [read_document]. now orders. Qed.
End Order.
Lemma members_order l l' : Permutation l l' -> NoDup (map fst l) ->
  read_document (JObj l) = read_document (JObj l') /\ read_block (JObj l) = read_block (JObj l') /\ read_inline (JObj l) = read_inline (JObj l').
Proof. intros P N. split; [now apply o_document|]. split; [now apply o_block|now apply o_inline]. Qed.
