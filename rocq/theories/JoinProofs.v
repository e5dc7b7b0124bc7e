(** * Scanning a source line by line
    A source that ends a line gives the same tokens whatever comes after it, unless its last
    token is a link; and what comes after it gives the tokens it gives alone. *)
From Verif Require Import Base Location Token Scanner SpecScan SpecLex SpecJoin ScanLemmas TextProofs ScanWhole.
Local Open Scope char_scope.
Local Open Scope nat_scope.

Lemma cut (l r s b : bytes) : l ++ r = s ++ b ->
  (exists r1, s = l ++ r1 /\ r = r1 ++ b) \/ (exists l2, l2 <> [] /\ l = s ++ l2 /\ b = l2 ++ r).
Proof.
  intros E. apply app_eq_app in E as (y & [(E1 & E2)|(E1 & E2)]).
  - destruct y as [|x y].
    + left. exists []. rewrite app_nil_r in *. subst. auto.
    + right. exists (x :: y). split; [discriminate|]. auto.
  - left. exists y. auto.
Qed.
Lemma ended_last s : ends [NL] s -> last s NUL = NL.
Proof. intros (b & ->). apply last_last. Qed.
Lemma ended_tail (l r : bytes) : ends [NL] (l ++ r) -> r <> [] -> ends [NL] r.
Proof.
  intros (b & E) Hr. destruct (exists_last Hr) as (r' & x & ->). rewrite app_assoc in E. apply app_inj_tail in E as [_ ->]. now exists r'.
Qed.
Lemma ended_in s : ends [NL] s -> In NL s.
Proof. intros (b & ->). apply in_app_iff. right. now left. Qed.
Lemma ended_some s : ends [NL] s -> s <> [].
Proof. intros (b & ->) K. now destruct b. Qed.
(** a text with a newline at most at its end *)
Definition oneb (p : bytes) : bool := negb (existsb (Ascii.eqb NL) (removelast p)).
Lemma one_not p : oneb p = true -> ~ In NL (removelast p).
Proof. unfold oneb. intros K H. apply Bool.negb_true_iff in K. assert (existsb (Ascii.eqb NL) (removelast p) = true) by (apply existsb_exists; exists NL; split; [exact H | apply Ascii.eqb_refl]). congruence. Qed.
Lemma removelast_in {A} (x : A) (a b : list A) : b <> [] -> In x a -> In x (removelast (a ++ b)).
Proof. intros Hb H. rewrite removelast_app by exact Hb. apply in_app_iff. now left. Qed.

Section More.
  Variable b : bytes.
  Lemma begins_more p s : begins p s -> begins p (s ++ b).
  Proof. intros (r & ->). exists (r ++ b). now rewrite app_assoc. Qed.
  Lemma begins_less p s : ends [NL] s -> oneb p = true -> begins p (s ++ b) -> begins p s.
  Proof.
    intros Hs Hp (r & E). symmetry in E. destruct (cut _ _ _ _ E) as [(r1 & K & _)|(l2 & K1 & K2 & _)]; [now exists r1|].
    exfalso. apply (one_not _ Hp). rewrite K2. apply removelast_in; [exact K1 | now apply ended_in].
  Qed.
  Lemma begins_iff p s : ends [NL] s -> oneb p = true -> begins p (s ++ b) <-> begins p s.
  Proof. intros H1 H2. split; [now apply begins_less | apply begins_more]. Qed.
  Lemma next_iff_more l s : s <> [] -> next_in l (s ++ b) <-> next_in l s.
  Proof.
    intros Hs. destruct s as [|x s]; [easy|]. unfold next_in. cbn. split; (intros [K|(y & r & K & Hy)]; [discriminate|]); right;
      injection K as <- _; exists x; [exists s | exists (s ++ b)]; auto.
  Qed.
  Lemma word_iff s : s <> [] -> word_ends (s ++ b) <-> word_ends s.
  Proof.
    intros Hs. destruct s as [|x s]; [easy|]. unfold word_ends. cbn. split; (intros [K|(y & r & K & Hy)]; [discriminate|]); right;
      injection K as <- _; exists x; [exists s | exists (s ++ b)]; auto.
  Qed.
  Lemma line_iff s : ends [NL] s -> line_ends (s ++ b) <-> line_ends s.
  Proof.
    intros Hs. pose proof (ended_some _ Hs). unfold line_ends. rewrite (begins_iff [NL] s Hs eq_refl).
    split; intros [K|K]; auto; [apply app_eq_nil in K as [K _] |]; contradiction.
  Qed.
  Lemma link_iff s : ends [NL] s -> link_ends (s ++ b) <-> link_ends s.
  Proof.
    intros Hs. pose proof (ended_some _ Hs) as Hn. destruct s as [|y s]; [easy|]. unfold link_ends.
    assert (forall z, In z inside_links -> z = y -> s <> []) as Hin.
    { intros z Hz -> ->. apply ended_last in Hs. cbn in Hs. subst y. cbn in Hz. intuition discriminate. }
    split; (intros [K|(z & r & K & Hz)]; [discriminate|]); right; cbn in K; injection K as K1 K2; exists y; [exists s | exists (s ++ b)]; (split; [reflexivity|]); subst z r.
    - destruct Hz as [Hz|[Hz|[Hz|[Hz1 Hz2]]]]; auto. do 3 right. split; [exact Hz1|]. pose proof (Hin y Hz1 eq_refl) as Hs'. destruct s as [|w s]; [easy|].
      destruct Hz2 as [Hz2|(z & r & K & Hz2)]; [discriminate|]. cbn in K. injection K as K1 _. subst z. right. eauto.
    - destruct Hz as [Hz|[Hz|[Hz|[Hz1 Hz2]]]]; auto. do 3 right. split; [exact Hz1|]. pose proof (Hin y Hz1 eq_refl) as Hs'. destruct s as [|w s]; [easy|].
      destruct Hz2 as [Hz2|(z & r & K & Hz2)]; [discriminate|]. cbn in K. injection K as K1 _. subst z. right. cbn. eauto.
  Qed.
  Lemma first_iff (P : ascii -> Prop) s : s <> [] -> (exists y r, s ++ b = y :: r /\ P y) <-> (exists y r, s = y :: r /\ P y).
  Proof.
    intros Hs. destruct s as [|x s]; [easy|]. cbn. split; intros (y & r & K & Hy); injection K as <- _; eauto.
  Qed.
  Lemma line_here l s : ends [NL] (l ++ s) ->
    (exists u r, l ++ s ++ b = u ++ "]" :: r /\ ~ In NL u /\ line_ends r) <-> (exists u r, l ++ s = u ++ "]" :: r /\ ~ In NL u /\ line_ends r).
  Proof.
    intros Hs. rewrite app_assoc. set (t := l ++ s) in *. clearbody t. split.
    - intros (u & r & E & Hu & Hr). symmetry in E. change ("]" :: r) with (["]"] ++ r) in E. rewrite app_assoc in E.
      assert (~ In NL (u ++ ["]"])) as Hn by (rewrite in_app_iff; intros [K|[K|[]]]; [auto | discriminate]).
      destruct (cut _ _ _ _ E) as [(r1 & K & Kr)|(l2 & K1 & K2 & _)].
      + exists u, r1. split; [rewrite K, <- app_assoc; reflexivity|]. split; [exact Hu|]. subst r.
        refine (proj1 (line_iff r1 _) Hr). apply (ended_tail (u ++ ["]"])); [now rewrite <- K|]. intros ->. rewrite app_nil_r in K. subst t. apply Hn. now apply ended_in.
      + exfalso. apply Hn. rewrite K2. apply in_app_iff. left. now apply ended_in.
    - intros (u & r & E & Hu & Hr). exists u, (r ++ b). split; [rewrite E, <- app_assoc; reflexivity|]. split; [exact Hu|].
      apply line_iff; [|exact Hr]. apply (ended_tail (u ++ ["]"])).
      + rewrite <- app_assoc. cbn. now rewrite <- E.
      + intros ->. rewrite E in Hs. apply ended_last in Hs. rewrite last_last in Hs. discriminate Hs.
  Qed.
End More.

(** the markup whose lexeme may end with a newline *)
Definition eats_line (ty : token_type) : bool :=
  match ty with
  | TNewLineChar | TDescriptionListMarker | THeading1 | THeading2 | THeading3 | THeading4 | THeading5 | THyperlink => true
  | _ => false
  end.
Ltac unend H := apply ended_last in H; first [discriminate H
  | rewrite ?app_comm_cons, ?app_assoc, ?last_last in H; discriminate H].
Lemma not_ended_app (x y : bytes) : y <> [] -> last y NUL <> NL -> ~ ends [NL] (x ++ y).
Proof. intros Hy Hl H. apply Hl, ended_last. now apply (ended_tail x). Qed.
Lemma line_not x s : ~ In NL s -> x <> NL -> ~ ends [NL] (x :: s).
Proof. intros H Hx K. apply ended_in in K as [K|K]; auto. Qed.
Lemma xref_end l : up_to (bs "<<") (bs ">>") l -> ~ ends [NL] l.
Proof. intros (x & -> & _) K. rewrite app_assoc in K. revert K. apply not_ended_app; discriminate. Qed.
Lemma anchor_end b l a : anchored b l a -> ~ ends [NL] l.
Proof.
  intros (_ & _ & x & E & _) K. rewrite !app_assoc in E. apply app_inj_tail in E as [-> _]. revert K. apply not_ended_app; discriminate.
Qed.
Lemma eats ty before l r : markup ty -> lexed ty before l r -> ends [NL] l -> eats_line ty = true.
Proof.
  intros M L K. destruct ty; try reflexivity; try (exfalso; apply M; cbn; tauto); exfalso; cbn [lexed] in L.
  all: unfold delimiter_line, bracket_line, admonition, bracketed in L.
  all: try solve [repeat match goal with
         | H : exists _, _ |- _ => destruct H as (? & H)
         | H : _ /\ _ |- _ => destruct H as [? H]
         | H : _ \/ _ |- _ => destruct H as [H|H]
         end; subst; try contradiction; unend K].
  all: try solve [destruct L as [L|(_ & _ & x & -> & _)]; [subst l; unend K | unend K]].
  all: try solve [decompose [and ex or] L; subst; try contradiction; unend K].
  all: try solve [decompose [and ex or] L; subst; revert K; first [apply xref_end | eapply anchor_end]; eassumption].
  - destruct L as (_ & [(-> & _)|(x & -> & Hx & _)]); [unend K|]. apply ended_in in K. cbn in K. destruct K as [K|[K|K]]; try discriminate. auto.
  - destruct L as (_ & d & _ & [(_ & ->)|(_ & d' & _ & ->)]).
    + change ("<" :: d ++ bs ">") with (("<" :: d) ++ bs ">") in K. revert K. apply not_ended_app; discriminate.
    + replace ("<" :: d ++ ">" :: d' ++ bs ">") with (("<" :: d ++ ">" :: d') ++ bs ">") in K by (cbn; rewrite <- app_assoc; reflexivity).
      revert K. apply not_ended_app; discriminate.
  - destruct L as (_ & d & _ & ->). change ("<" :: d ++ bs "> ") with (("<" :: d) ++ bs "> ") in K. revert K. apply not_ended_app; discriminate.
  - destruct L as (_ & _ & (body & -> & Hb) & _). revert K. apply line_not; [|discriminate]. intros K. rewrite Forall_forall in Hb. destruct (Hb _ K) as (_ & Q & _). now apply Q.
  - destruct L as [(-> & _)|[L|[(-> & _)|[(-> & _)|(n & -> & _)]]]]; try unend K.
    cbn [In] in L. repeat (destruct L as [<-|L]; [unend K|]). destruct L.
  - revert K. eapply anchor_end. apply L.
  - destruct L as (_ & _ & n & v & -> & Hn & Hv). apply ended_in in K. destruct K as [K|K]; [discriminate|]. apply in_app_iff in K as [K|[K|K]]; [|discriminate|auto].
    apply (Hn _ K). right. now left.
Qed.

(** ** What comes later in the source *)
Lemma lexed_more b ty before l r : markup ty -> ends [NL] r -> lexed ty before l (r ++ b) <-> lexed ty before l r.
Proof.
  intros M Hr. pose proof (ended_some _ Hr) as Hn.
  assert (forall u, ends [NL] (u ++ r)) as Hlr by (intros u; destruct Hr as (w & ->); exists (u ++ w); now rewrite app_assoc).
  assert (forall p, oneb p = true -> begins p (r ++ b) <-> begins p r) as B1 by (intros p; now apply begins_iff).
  assert (forall p, begins p (r ++ b) -> oneb p = true -> begins p r) as B1' by (intros p K1 K2; now apply B1).
  assert (forall p, begins p r -> begins p (r ++ b)) as B1'' by (intros p; apply begins_more).
  assert (r ++ b <> []) as Hn' by (intros K; now apply app_eq_nil in K as [K _]).
  destruct ty; try (exfalso; apply M; cbn; tauto); cbn [lexed].
  all: unfold delimiter_line, bracket_line, admonition, bracket_line, formats, anchored, heading.
  all: rewrite ?(B1 ["010"] eq_refl), ?(line_iff b r Hr), ?(link_iff b r Hr), ?(word_iff b r Hn), ?(next_iff_more b _ r Hn).
  all: rewrite ?(B1 [" "] eq_refl), ?(B1 (bs "tag::") eq_refl), ?(B1 (bs "end::") eq_refl), ?(B1 (bs "..") eq_refl), ?(B1 ["|"] eq_refl),
         ?(B1 (bs "**" ++ ["010"]) eq_refl), ?(B1 (bs "__" ++ ["010"]) eq_refl), ?(B1 (bs "++" ++ ["010"]) eq_refl),
         ?(B1 ["*"] eq_refl), ?(B1 ["_"] eq_refl), ?(B1 ["`"] eq_refl), ?(B1 ["+"] eq_refl), ?(B1 ["#"] eq_refl), ?(B1 (bs "." ++ ["010"]) eq_refl).
  all: try reflexivity.
  - pose proof (line_iff b r Hr) as Q.
    split; (intros (L & [K|(x & K1 & K2 & K3 & K4 & K5 & K6)]); [auto|]); (split; [exact L|]); right; exists x; repeat (split; [tauto|]); tauto.
  - rewrite app_assoc, (begins_iff b (bs "|===") (l ++ r) (Hlr l) eq_refl). reflexivity.
  - destruct r as [|q r']; [easy|]. cbn [app].
    assert (q = "'" \/ q = "034" -> word_ends (r' ++ b) <-> word_ends r') as Q.
    { intros Hq. apply word_iff. intros ->. apply ended_last in Hr. cbn in Hr. destruct Hq as [-> | ->]; discriminate. }
    split; intros (K1 & K2 & K3); (split; [exact K1|]); (split; [exact K2|]); intros q0 r0 E Hq; injection E as <- <-;
      intros W; apply (K3 _ _ eq_refl Hq); now apply (Q Hq).
  - split; intros (K1 & K2 & K3 & K4); (split; [exact K1|]); (split; [exact K2|]); (split; [exact K3|]); intros u p E Hp;
      apply (first_iff b _ r Hn), (K4 u p E Hp).
  - destruct r as [|q r']; [easy|]. cbn [app].
    assert (q = "s" -> word_ends (r' ++ b) <-> word_ends r') as Q.
    { intros ->. apply word_iff. intros ->. apply ended_last in Hr. discriminate Hr. }
    split; (intros [(K1 & w & K & K2)|[K|[(K1 & [K2|(x & w & K & K2)])|K]]];
      [left; injection K as -> <-; split; [exact K1|]; eexists; split; [reflexivity | now apply Q]
      | tauto | discriminate
      | do 2 right; left; injection K as -> <-; split; [exact K1|]; right; do 2 eexists; split; [reflexivity | exact K2]
      | tauto]).
  - rewrite (line_here b l r (Hlr l)). reflexivity.
Qed.
Lemma lexed_end b ty before l : markup ty -> ends [NL] l -> lexed ty before l b -> lexed ty before l [].
Proof.
  intros M E L. pose proof (eats ty before l b M L E) as Q. destruct ty; try discriminate Q; try exact L.
  cbn [lexed] in *. destruct L as (K1 & K2 & _ & _). split; [exact K1|]. split; [exact K2|]. split; [left; reflexivity|].
  intros u p -> Hp. apply ended_last in E. rewrite last_last in E. subst p. cbn in Hp. intuition discriminate.
Qed.
Lemma lexed_end_more b ty before l : markup ty -> ends [NL] l -> ty <> THyperlink -> lexed ty before l [] -> lexed ty before l b.
Proof.
  intros M E N L. pose proof (eats ty before l [] M L E) as Q. destruct ty; try discriminate Q; try exact L. now elim N.
Qed.
Lemma wrapped_end before l a : wrapped before l a -> ~ ends [NL] l.
Proof. intros [[W _]|W]; [now apply xref_end | exact (anchor_end _ _ _ W)]. Qed.
Lemma wrapped_more b before l r : ends [NL] r -> wrapped before l (r ++ b) <-> wrapped before l r.
Proof. intros Hr. unfold wrapped, anchored. rewrite (begins_iff b ["010"] r Hr eq_refl). reflexivity. Qed.

(** ** Markup over the end of a line *)
Definition spans (ty : token_type) : bool :=
  match ty with
  | TInclude | TBlockImageMacro | TInlineImageMacro | TInlineStyle | TLinkMacro | THyperlink => true
  | _ => false
  end.
Lemma removelast_incl {A} (x : A) s : In x (removelast s) -> In x s.
Proof.
  induction s as [|y [|z s] IH]; [easy|easy|]. change (removelast (y :: z :: s)) with (y :: removelast (z :: s)).
  intros [K|K]; [now left | right; auto].
Qed.
Lemma alnum_line n : Forall (fun x => is_ascii_alnum x = true \/ x = "-") n -> ~ In NL n.
Proof. intros H K. rewrite Forall_forall in H. destruct (H _ K) as [Q|Q]; discriminate Q. Qed.
Lemma digits_line d : digits d -> ~ In NL d.
Proof. intros H K. unfold digits in H. rewrite Forall_forall in H. discriminate (H _ K). Qed.
Lemma spanning ty before l r : markup ty -> lexed ty before l r -> In NL (removelast l) -> spans ty = true.
Proof.
  intros M L K. destruct ty; try reflexivity; try (exfalso; apply M; cbn; tauto); exfalso; cbn [lexed] in L.
  all: unfold delimiter_line, bracket_line, admonition in L.
  all: try solve [assert (l = l) by reflexivity; decompose [and or] L; subst l; cbn in K; intuition discriminate].
  all: try solve [destruct L as (_ & x & -> & _); rewrite removelast_last in K; apply repeat_spec in K; discriminate K].
  all: try solve [apply removelast_incl in K; destruct L as [_ [_ L]]; auto].
  all: try solve [destruct L as [->|(_ & _ & x & -> & Hx)]; [cbn in K; intuition discriminate|];
      apply removelast_incl in K; cbn in K; rewrite in_app_iff in K; cbn in K; intuition discriminate].
  all: apply removelast_incl in K.
  - destruct L as (_ & [(-> & _)|(x & -> & Hx & _)]); cbn in K; intuition discriminate.
  - destruct L as (_ & d & Hd & [(_ & ->)|(_ & d' & Hd' & ->)]); cbn in K; rewrite in_app_iff in K; cbn in K; rewrite ?in_app_iff in K; cbn in K;
      pose proof (digits_line _ Hd); try pose proof (digits_line _ Hd'); intuition discriminate.
  - destruct L as (_ & d & Hd & ->). cbn in K. rewrite in_app_iff in K. cbn in K. pose proof (digits_line _ Hd). intuition discriminate.
  - destruct L as (_ & _ & (body & -> & Hb) & _). destruct K as [K|K]; [discriminate|]. rewrite Forall_forall in Hb. destruct (Hb _ K) as (_ & Q & _). now apply Q.
  - destruct L as [(-> & _)|[L|[(-> & _)|[(-> & _)|(n & -> & Hn)]]]]; try (cbn in K; intuition discriminate).
    + cbn [In] in L. repeat (destruct L as [<-|L]; [cbn in K; intuition discriminate|]). destruct L.
    + cbn in K. rewrite in_app_iff in K. cbn in K. rewrite Forall_forall in Hn. destruct K as [K|[K|[K|[]]]]; try discriminate K. discriminate (Hn _ K).
  - destruct L as ((_ & _ & x & -> & Hx) & _). cbn in K. rewrite in_app_iff in K. cbn in K. intuition discriminate.
  - destruct L as (_ & _ & n & v & -> & Hn & Hv). cbn in K. rewrite in_app_iff in K. cbn in K.
    destruct K as [K|[K|[K|K]]]; try discriminate; [|auto]. apply (Hn _ K). right. now left.
  - destruct L as (n & -> & Hn). cbn in K. rewrite in_app_iff in K. cbn in K. pose proof (alnum_line _ Hn). intuition discriminate.
Qed.
(** a bracket that closes after the end of the text is not closed in the text *)
Lemma open_over (open x s l2 : bytes) : open ++ x ++ ["]"] = s ++ l2 -> l2 <> [] -> ~ In "]" x -> ends [NL] s -> ~ In NL open ->
  exists y y', s = open ++ y /\ ~ In "]" y /\ x = y ++ y'.
Proof.
  intros E Hl Hx Hs Ho. destruct (cut _ _ _ _ E) as [(y & K & E2)|(w & K1 & K2 & _)].
  - exists y. destruct (exists_last Hl) as (l' & c & ->). rewrite app_assoc in E2. apply app_inj_tail in E2 as [-> _].
    exists l'. split; [exact K|]. split; [|reflexivity]. intros Q. apply Hx. apply in_app_iff. now left.
  - exfalso. apply Ho. rewrite K2. apply in_app_iff. left. now apply ended_in.
Qed.
Lemma http_over (s l2 : bytes) : begins (bs "http") (s ++ l2) -> ends [NL] s -> begins (bs "http") s.
Proof. intros K E. now apply (begins_less l2). Qed.
Lemma link_special before s : begins (bs "http") s -> Forall link_char s -> ends [NL] s -> special before s.
Proof.
  intros H1 H2 E. left. exists THyperlink, s, []. split; [now rewrite app_nil_r|]. split; [unfold markup; cbn; intuition discriminate|].
  cbn [lexed]. split; [exact H1|]. split; [exact H2|]. split; [left; reflexivity|].
  intros u p -> Hp. apply ended_last in E. rewrite last_last in E. subst p. cbn in Hp. intuition discriminate.
Qed.
Lemma markup_over ty before l r s l2 : markup ty -> lexed ty before l r -> l = s ++ l2 -> l2 <> [] -> ends [NL] s -> special before s.
Proof.
  intros M L E Hl Hs. assert (In NL (removelast l)) as K by (rewrite E; apply removelast_in; [exact Hl | now apply ended_in]).
  pose proof (spanning ty before l r M L K) as Q. destruct ty; try discriminate Q; cbn [lexed] in L.
  - destruct L as (Hb & x & El & Hx). rewrite El in E.
    destruct (open_over (bs "image::") x s l2 E Hl Hx Hs) as (y & y' & -> & Hy & _); [cbn; intuition discriminate|].
    do 3 right. left. now constructor.
  - destruct L as ((x & El & Hx) & L1 & L2). rewrite El in E.
    destruct (open_over (bs "image:") x s l2 E Hl Hx Hs) as (y & y' & -> & Hy & ->); [cbn; intuition discriminate|].
    do 3 right. left. constructor; [exact Hy|]. intros c w ->. split; intros ->; [apply L1 | apply L2]; rewrite El; eexists; reflexivity.
  - destruct L as (u & El & H1 & H2). assert (exists y, u = s ++ y) as (y & ->).
    { destruct (exists_last Hl) as (l' & c & ->). rewrite El, app_assoc in E. apply app_inj_tail in E as [-> _]. now exists l'. }
    apply link_special; [now apply http_over in H1 | now apply Forall_app in H2 | exact Hs].
  - destruct L as (H1 & H2 & _). apply link_special; [|rewrite E in H2; now apply Forall_app in H2 | exact Hs].
    rewrite E in H1. now apply http_over in H1.
  - destruct L as ((x & El & Hx) & _). rewrite El in E.
    destruct (open_over (bs "[.") x s l2 E Hl Hx Hs) as (y & y' & -> & Hy & _); [cbn; intuition discriminate|].
    do 3 right. left. now constructor.
  - destruct L as (Hb & x & El & Hx). rewrite El in E.
    destruct (open_over (bs "include::") x s l2 E Hl Hx Hs) as (y & y' & -> & Hy & _); [cbn; intuition discriminate|].
    do 3 right. left. now constructor.
Qed.
Lemma wrapped_over before l r s l2 : wrapped before l r -> l = s ++ l2 -> l2 <> [] -> ends [NL] s -> special before s.
Proof.
  intros W E Hl Hs. do 4 right. left. destruct W as [[(x & El & _ & Hx) Hp]|(Hb & _ & x & El & _ & Hx)].
  - rewrite El in E. destruct (cut _ _ _ _ E) as [(y & K & E2)|(w & K1 & K2 & _)].
    + rewrite K. constructor.
      * intros (t & ->). apply Hp. rewrite El. cbn in E2. cbn. exists (t ++ l2). rewrite E2. reflexivity.
      * intros (u & v & -> & _). rewrite <- !app_assoc in E2. apply Hx in E2. apply app_eq_nil in E2 as [_ E2]. contradiction.
    + exfalso. apply ended_in in Hs. assert (In NL (bs "<<")) as Q by (rewrite K2; apply in_app_iff; now left). cbn in Q. intuition discriminate.
  - rewrite E in El. symmetry in El. rewrite <- app_assoc in El. destruct (cut _ _ _ _ El) as [(y & K & E2)|(w & K1 & K2 & _)].
    + rewrite K. constructor; [exact Hb|]. intros (u & v & -> & _).
      assert (x ++ (bs "]]" ++ ["010"]) = u ++ (bs "]]" ++ ["010"]) ++ (v ++ l2 ++ ["010"])) as Q by (rewrite E2, <- !app_assoc; reflexivity).
      apply Hx in Q. apply app_eq_nil in Q as [_ Q]. now apply app_eq_nil in Q as [Q _].
    + exfalso. apply ended_in in Hs. assert (In NL (bs "[[")) as Q by (rewrite K2; apply in_app_iff; now left). cbn in Q. intuition discriminate.
Qed.
Lemma apart (p r s b : bytes) : p ++ r = s ++ b -> ~ In NL p -> ends [NL] s -> exists y, s = p ++ y /\ r = y ++ b.
Proof.
  intros E Hp Hs. destruct (cut _ _ _ _ E) as [(y & K & E2)|(w & K1 & K2 & _)]; [eauto|].
  exfalso. apply Hp. rewrite K2. apply in_app_iff. left. now apply ended_in.
Qed.
Lemma not_in_more (x : ascii) a b : ~ In x (a ++ b) -> ~ In x a.
Proof. intros H K. apply H, in_app_iff. now left. Qed.
Lemma unclosed_less b before s : unclosed before (s ++ b) -> ends [NL] s -> unclosed before s.
Proof.
  intros U Hs. remember (s ++ b) as w eqn:E. destruct U as [r H1 H2|r H1 H2|r H1 H2|r H1|name r H1 H2 H3].
  - destruct (apart _ _ _ _ E) as (y & -> & ->); [cbn; intuition discriminate | exact Hs |]. apply not_in_more in H2. now constructor.
  - destruct (apart _ _ _ _ E) as (y & -> & ->); [cbn; intuition discriminate | exact Hs |]. apply not_in_more in H2. now constructor.
  - destruct (apart _ _ _ _ E) as (y & -> & ->); [cbn; intuition discriminate | exact Hs |]. apply not_in_more in H1. constructor; [exact H1|].
    intros x r' ->. apply (H2 x (r' ++ b)). reflexivity.
  - destruct (apart _ _ _ _ E) as (y & -> & ->); [cbn; intuition discriminate | exact Hs |]. apply not_in_more in H1. now constructor.
  - exfalso. apply ended_in in Hs. assert (In NL (":" :: name ++ ":" :: r)) as Q by (rewrite E; apply in_app_iff; now left).
    cbn in Q. rewrite in_app_iff in Q. cbn in Q. rewrite Forall_forall in H2. destruct Q as [Q|[Q|[Q|Q]]]; try discriminate; [|auto].
    apply (H2 _ Q). right. now left.
Qed.
Lemma no_line (p s b : bytes) : p = s ++ b -> ~ In NL p -> ends [NL] s -> False.
Proof. intros -> H Hs. apply H, in_app_iff. left. now apply ended_in. Qed.
Lemma http_chars : Forall link_char (bs "http").
Proof.
  repeat (apply Forall_cons; [split; [reflexivity|]; split; [discriminate|]; split; [discriminate|]; intros (_ & Q); discriminate Q|]). apply Forall_nil.
Qed.
Lemma breaks_less b before s : breaks before (s ++ b) -> ends [NL] s -> special before s.
Proof.
  intros U Hs. remember (s ++ b) as w eqn:E. destruct U as [name H1 H2|name H1|name H1|n H1 H2|n x r H1 H2 H3|u x r H1 H2 H3 H4|u x r H1 H2 H3|r H1 H2|r H1 H2|kw r H1 H2].
  - exfalso. apply (no_line _ _ _ E); [|exact Hs]. intros [K|K]; [discriminate|]. rewrite Forall_forall in H2. apply (H2 _ K). right. now left.
  - exfalso. apply (no_line _ _ _ E); [|exact Hs]. intros [K|K]; [discriminate|]. now apply alnum_line in H1.
  - exfalso. apply (no_line _ _ _ E); [|exact Hs]. intros [K|K]; [discriminate|]. rewrite Forall_forall in H1. discriminate (H1 _ K).
  - exfalso. apply (no_line _ _ _ E); [|exact Hs]. intros K. apply repeat_spec in K. discriminate K.
  - change (x :: r) with ([x] ++ r) in E. rewrite app_assoc in E. destruct (apart _ _ _ _ E) as (y & -> & ->); [|exact Hs|].
    { rewrite in_app_iff. intros [K|[K|[]]]; [apply repeat_spec in K; discriminate K|]. apply H3. rewrite K. reflexivity. }
    do 4 right. left. rewrite <- app_assoc. cbn. now constructor.
  - replace ("|" :: u ++ x :: r) with (("|" :: u ++ [x]) ++ r) in E by (cbn; rewrite <- app_assoc; reflexivity).
    destruct (apart _ _ _ _ E) as (y & -> & ->); [|exact Hs|].
    { intros [K|K]; [discriminate|]. apply in_app_iff in K as [K|[K|[]]].
      - rewrite Forall_forall in H2. destruct (H2 _ K) as (_ & Q & _). now apply Q.
      - apply H4. rewrite K. reflexivity. }
    do 4 right. left. cbn. rewrite <- app_assoc. cbn. now constructor.
  - replace (bs "http" ++ u ++ x :: r) with ((bs "http" ++ u) ++ x :: r) in E by (rewrite <- app_assoc; reflexivity).
    destruct (cut _ _ _ _ E) as [(y & K & E2)|(z & K1 & K2 & _)].
    + destruct y as [|x' y].
      * rewrite app_nil_r in K. rewrite K. apply link_special; [now exists u | | now rewrite <- K].
        apply Forall_app. split; [exact http_chars | exact H1].
      * cbn in E2. injection E2 as <- ->. rewrite K, <- app_assoc. do 4 right. left. now constructor.
    + assert (begins (bs "http") s) as Hh by (apply (http_over s z); [rewrite <- K2; now exists u | exact Hs]).
      apply link_special; [exact Hh | | exact Hs].
      assert (Forall link_char (s ++ z)) as Q; [|now apply Forall_app in Q].
      rewrite <- K2. apply Forall_app. split; [exact http_chars | exact H1].
  - destruct (apart _ _ _ _ E) as (y & -> & ->); [cbn; intuition discriminate | exact Hs |]. do 4 right. left. constructor.
    + intros (t & ->). apply H1. now exists (t ++ b).
    + intros (u & v & -> & Hu). apply H2. exists u, (v ++ b). split; [|exact Hu]. rewrite <- !app_assoc. reflexivity.
  - destruct (apart _ _ _ _ E) as (y & -> & ->); [cbn; intuition discriminate | exact Hs |]. do 4 right. left. constructor; [exact H1|].
    intros (u & v & -> & Hu). apply H2. exists u, (v ++ b). split; [|exact Hu]. rewrite <- !app_assoc. reflexivity.
  - destruct (apart _ _ _ _ E) as (y & -> & ->); [destruct H1 as [-> | ->]; cbn; intuition discriminate | exact Hs |]. apply not_in_more in H2.
    do 4 right. left. now constructor.
Qed.
Lemma special_less b before s : special before (s ++ b) -> ends [NL] s -> special before s.
Proof.
  intros Sp Hs. destruct Sp as [(ty & l & r & E & M & L)|[(l & r & E & W)|[T|[U|[B|[D1 D2]]]]]].
  - symmetry in E. destruct (cut _ _ _ _ E) as [(r1 & K & E2)|(l2 & K1 & K2 & _)].
    + left. exists ty, l, r1. split; [exact K|]. split; [exact M|]. subst r. destruct r1 as [|x r1].
      * rewrite app_nil_r in K. subst l. now apply lexed_end in L.
      * apply lexed_more in L; [exact L | exact M |]. apply (ended_tail l); [now rewrite <- K | discriminate].
    + exact (markup_over ty before l r s l2 M L K2 K1 Hs).
  - symmetry in E. destruct (cut _ _ _ _ E) as [(r1 & K & E2)|(l2 & K1 & K2 & _)].
    + right. left. exists l, r1. split; [exact K|]. subst r. destruct r1 as [|x r1].
      * rewrite app_nil_r in K. subst l. now apply wrapped_end in W.
      * apply wrapped_more in W; [exact W|]. apply (ended_tail l); [now rewrite <- K | discriminate].
    + exact (wrapped_over before l r s l2 W K2 K1 Hs).
  - do 2 right. left. destruct T as [T|T]; [left | right]; now apply (begins_less b).
  - do 3 right. left. now apply (unclosed_less b).
  - exact (breaks_less b before s B Hs).
  - do 5 right. split; [exact D1|]. now apply (begins_less b).
Qed.
Lemma grammar_more b before ty l r : grammar before ty l r -> ends [NL] (l ++ r) -> (r = [] -> ty <> THyperlink) ->
  ty <> TStartTag -> ty <> TEndTag -> grammar before ty l (r ++ b).
Proof.
  intros G E Hl N1 N2. destruct G as [ty l r M L|l r W B|l r P Sp|l r H|l r H1 H2]; try now elim N1; try now elim N2.
  - constructor 1; [exact M|]. destruct r as [|x r].
    + rewrite app_nil_r in E. cbn. apply lexed_end_more; auto.
    + apply lexed_more; [exact M | | exact L]. apply (ended_tail l); [exact E | discriminate].
  - constructor 2; [|exact B]. destruct r as [|x r].
    + rewrite app_nil_r in E. now apply wrapped_end in W.
    + apply wrapped_more; [|exact W]. apply (ended_tail l); [exact E | discriminate].
  - constructor 3.
    + destruct P as (x & v & -> & Hv & Hr). exists x, v. split; [reflexivity|]. split; [exact Hv|]. right.
      destruct Hr as [->|(y & r' & -> & Hy)]; [|exists y, (r' ++ b); auto]. exfalso. apply Sp. rewrite app_nil_r in *.
      destruct (exists_last (l := x :: v)) as (p & z & Ez); [discriminate|]. destruct E as (q & E). rewrite E in Ez. apply app_inj_tail in Ez as [_ <-].
      destruct q as [|x' q]; cbn in E; injection E as -> ->.
      * left. exists TNewLineChar, ["010"], []. split; [reflexivity|]. split; [unfold markup; cbn; intuition discriminate | reflexivity].
      * exfalso. apply (Hv NL); [apply in_app_iff; right; now left | now left].
    + rewrite app_assoc. intros Q. apply Sp. now apply special_less in Q.
Qed.

(** ** What comes earlier in the source *)
(** two places that the grammar cannot tell apart *)
Definition alike (b b' : bytes) : Prop :=
  (at_line_start b <-> at_line_start b') /\ (ends [" "] b <-> ends [" "] b')
  /\ (prev_in before_mark b <-> prev_in before_mark b')
  /\ (prev_in ["000"; " "; "010"] b <-> prev_in ["000"; " "; "010"] b').
Lemma alike_sym b b' : alike b b' -> alike b' b.
Proof. unfold alike. tauto. Qed.
Lemma tail_same {P : ascii -> Prop} (a b : bytes) : b <> [] -> (exists c x, a ++ b = c ++ [x] /\ P x) <-> (exists c x, b = c ++ [x] /\ P x).
Proof.
  intros Hb. destruct (exists_last Hb) as (b' & y & ->). split; intros (c & x & E & Hx).
  - rewrite app_assoc in E. apply app_inj_tail in E as [_ <-]. eauto.
  - apply app_inj_tail in E as [_ <-]. exists (a ++ b'), y. split; [now rewrite app_assoc | exact Hx].
Qed.
Lemma prev_alike l a b : ends [NL] a -> In NL l -> prev_in l (a ++ b) <-> prev_in l b.
Proof.
  intros Ha Hl. destruct b as [|y b].
  - rewrite app_nil_r. destruct Ha as (w & ->). split; [left; reflexivity|]. intros _. right. exists w, NL. auto.
  - unfold prev_in. rewrite (tail_same a (y :: b)) by discriminate. split; (intros [K|K]; [|now right]); [destruct a|]; discriminate.
Qed.
Lemma alike_after a b : ends [NL] a -> alike (a ++ b) b.
Proof.
  intros Ha. unfold alike. split; [|split; [|split; apply prev_alike; auto; cbn; tauto]].
  - unfold at_line_start. destruct b as [|y b].
    + rewrite app_nil_r. split; [left; reflexivity|]. intros _. right. exact Ha.
    + pose proof (tail_same (P := fun x => x = NL) a (y :: b)) as Q. split; (intros [K|(w & K)]; [try (destruct a; discriminate); discriminate|]); right;
        (destruct Q as [Q1 Q2]; [discriminate|]); [destruct Q1 as (c & x & E & ->) | destruct Q2 as (c & x & E & ->)]; eauto.
  - destruct b as [|y b].
    + rewrite app_nil_r. destruct Ha as (w & ->). split; intros (c & K); [apply app_inj_tail in K as [_ K]; discriminate | destruct c; discriminate].
    + pose proof (tail_same (P := fun x => x = " ") a (y :: b)) as Q. unfold ends. split; intros (w & K);
        (destruct Q as [Q1 Q2]; [discriminate|]); [destruct Q1 as (c & x & E & ->) | destruct Q2 as (c & x & E & ->)]; eauto.
Qed.
Lemma lexed_alike ty b b' l r : alike b b' -> lexed ty b l r -> lexed ty b' l r.
Proof.
  intros (A1 & A2 & A3 & A4). destruct ty; cbn [lexed];
    unfold delimiter_line, admonition, bracket_line, formats, wrapped, anchored, heading; rewrite ?A1, ?A2, ?A3, ?A4; try (intros K; exact K).
  intros (K & d & K1 & K2). split; [exact K|]. exists d. split; [exact K1|]. rewrite <- A1. exact K2.
Qed.
Lemma wrapped_alike b b' l r : alike b b' -> wrapped b l r -> wrapped b' l r.
Proof. intros (A1 & _). unfold wrapped, anchored. rewrite A1. auto. Qed.
Lemma unclosed_alike b b' r : alike b b' -> unclosed b r -> unclosed b' r.
Proof. intros (A1 & _) U. destruct U; constructor; auto; now apply A1. Qed.
Lemma breaks_alike b b' r : alike b b' -> breaks b r -> breaks b' r.
Proof.
  intros (A1 & A2 & _) U. destruct U as [name H1 H2|name H1|name H1|n H1 H2|n x r H1 H2 H3|u x r H1 H2 H3 H4|u x r H1 H2 H3|r H1 H2|r H1 H2|kw r H1 H2];
    constructor; auto; try now apply A1.
  destruct H1 as [[H1 H1']|H1]; [left; split; [now apply A1 | exact H1'] | right; now apply A2].
Qed.
Lemma deep_alike b b' r : alike b b' -> too_deep b r -> too_deep b' r.
Proof. intros (A1 & _). unfold too_deep. rewrite A1. auto. Qed.
Lemma special_alike b b' r : alike b b' -> special b r -> special b' r.
Proof.
  intros A [(ty & l & r' & E & M & L)|[(l & r' & E & W)|[T|[U|[B|D]]]]].
  - left. exists ty, l, r'. split; [exact E|]. split; [exact M|]. exact (lexed_alike _ _ _ _ _ A L).
  - right. left. exists l, r'. split; [exact E|]. exact (wrapped_alike _ _ _ _ A W).
  - do 2 right. now left.
  - do 3 right. left. exact (unclosed_alike _ _ _ A U).
  - do 4 right. left. exact (breaks_alike _ _ _ A B).
  - do 5 right. exact (deep_alike _ _ _ A D).
Qed.
Lemma grammar_alike b b' ty l r : alike b b' -> grammar b ty l r -> grammar b' ty l r.
Proof.
  intros A G. destruct G as [ty l r M L|l r W B|l r P Sp|l r H|l r H1 H2].
  - constructor 1; [exact M|]. exact (lexed_alike _ _ _ _ _ A L).
  - constructor 2; [|exact B]. exact (wrapped_alike _ _ _ _ A W).
  - constructor 3; [exact P|]. intros K. apply Sp. exact (special_alike _ _ _ (alike_sym _ _ A) K).
  - now constructor 4.
  - now constructor 5.
Qed.

(** ** Whole sources *)
Lemma tokenised_after a : ends [NL] a -> forall b s ks, tokenised b s ks -> tokenised (a ++ b) s ks.
Proof.
  intros Ha b s ks T. induction T as [b|b ty l r ks G N1 N2 T IH]; [constructor|].
  constructor; [|exact N1|exact N2|now rewrite <- app_assoc]. apply (grammar_alike b); [|exact G]. apply alike_sym. now apply alike_after.
Qed.
(** the last kind is not a link *)
Definition unlinked (ks : list (token_type * bytes)) : Prop := forall p l, ks <> p ++ [(THyperlink, l)].
Lemma grammar_some b ty l r : grammar b ty l r -> l <> [].
Proof.
  intros G ->. destruct ty; try solve [inversion G as [t l' r' M L|l' r' W B|l' r' P Sp|l' r' H|l' r' H1 H2]; subst; cbn [lexed] in L;
    unfold delimiter_line, bracket_line, admonition, bracketed, heading, anchored, up_to, begins in L; decompose [and or ex] L; discriminate].
  all: inversion G as [t l' r' M L|l' r' W B|l' r' P Sp|l' r' H|l' r' H1 H2]; subst.
  all: try (exfalso; apply M; cbn; tauto).
  all: try solve [cbn [lexed] in L; destruct L as [L|(_ & _ & x & L & _)]; discriminate L].
  all: try solve [destruct H as [(x & H & _)|[(x & H & _) _]]; discriminate H].
  all: try solve [destruct H1 as (x & H1 & _); discriminate H1].
  - cbn [lexed] in L. destruct L as (u & L & _). destruct u; discriminate.
  - destruct W as [[(x & W & _) _]|(_ & _ & x & W & _)]; discriminate W.
  - destruct P as (x & v & P & _). discriminate P.
  - cbn [lexed] in L. destruct L as [(L & _)|[L|[(L & _)|[(L & _)|(n & L & _)]]]]; try discriminate L. cbn in L. intuition discriminate.
Qed.
Lemma tokenised_app before s ks : tokenised before s (ks ++ [(TEof, [])]) -> ends [NL] s \/ s = [] -> unlinked ks ->
  forall b kb, tokenised (before ++ s) b kb -> tokenised before (s ++ b) (ks ++ kb).
Proof.
  revert before s. induction ks as [|[ty l] ks IH]; intros before s T Hs Hu b kb Tb.
  - cbn in T. inversion T as [c E1 E2 E3|c ty' l r ks' G N1 N2 T' E1 E2 E3]; subst.
    + rewrite app_nil_r in Tb. exact Tb.
    + inversion T'.
  - cbn in T. inversion T as [c E1 E2 E3|c ty' l' r ks' G N1 N2 T' E1 E2 E3]; subst; [destruct ks; discriminate|].
    assert (ends [NL] (l ++ r)) as He.
    { destruct Hs as [Hs|Hs]; [exact Hs|]. exfalso. apply app_eq_nil in Hs as [-> _].
      now apply grammar_some in G. }
    cbn. rewrite <- app_assoc. constructor; [|exact N1|exact N2|].
    + apply grammar_more; [exact G | exact He | | exact N1 | exact N2]. intros -> ->.
      inversion T' as [c E1 E2 E3|c ty' l' r' ks' G' N1' N2' T'' E1 E2 E3]; subst.
      * destruct ks as [|k [|k' ks]]; try discriminate. now apply (Hu [] l).
      * match goal with K : _ ++ _ = [] |- _ => apply app_eq_nil in K as [K _] end. now apply grammar_some in G'.
    + apply IH; [exact T' | | | now rewrite <- app_assoc].
      * destruct r as [|x r]; [now right | left]. apply (ended_tail l); [exact He | discriminate].
      * intros p q ->. now apply (Hu ((ty, l) :: p) q).
Qed.
Lemma gets_app src b before s ks : tokenised before s (ks ++ [(TEof, [])]) -> ends [NL] s \/ s = [] -> unlinked ks ->
  src = before ++ s ++ b -> gets src before -> gets src (before ++ s).
Proof.
  revert before s. induction ks as [|[ty l] ks IH]; intros before s T Hs Hu E Hg.
  - cbn in T. inversion T as [c E1 E2 E3|c ty' l r ks' G N1 N2 T' E1 E2 E3]; subst.
    + rewrite app_nil_r. exact Hg.
    + inversion T'.
  - cbn in T. inversion T as [c E1 E2 E3|c ty' l' r ks' G N1 N2 T' E1 E2 E3]; subst; [destruct ks; discriminate|].
    assert (ends [NL] (l ++ r)) as He.
    { destruct Hs as [Hs|Hs]; [exact Hs|]. exfalso. apply app_eq_nil in Hs as [-> _]. now apply grammar_some in G. }
    rewrite (app_assoc before l r). apply IH; [exact T' | | | now rewrite <- !app_assoc |].
    + destruct r as [|x r]; [now right | left]. apply (ended_tail l); [exact He | discriminate].
    + intros p q ->. now apply (Hu ((ty, l) :: p) q).
    + apply (gets_token _ before ty l (r ++ b)); [exact Hg | now rewrite <- app_assoc | | exact N1 | exact N2].
      apply grammar_more; [exact G | exact He | | exact N1 | exact N2]. intros -> ->.
      inversion T' as [c E1 E2 E3|c ty' l' r' ks' G' N1' N2' T'' E1 E2 E3]; subst.
      * destruct ks as [|k [|k' ks]]; try discriminate. now apply (Hu [] l).
      * match goal with K : _ ++ _ = [] |- _ => apply app_eq_nil in K as [K _] end. now apply grammar_some in G'.
Qed.
Lemma gets_after a b c : ends [NL] a -> gets (a ++ b) a -> gets b c -> gets (a ++ b) (a ++ c).
Proof.
  intros Ha H K. induction K as [|c ty l r K IH E G N1 N2]; [rewrite app_nil_r; exact H|].
  rewrite (app_assoc a c l). apply (gets_token _ (a ++ c) ty l r); [exact IH | rewrite E at 1; now rewrite <- app_assoc | | exact N1 | exact N2].
  apply (grammar_alike c); [|exact G]. apply alike_sym. now apply alike_after.
Qed.

(** ** Lines and columns *)
Fixpoint place (line col : nat) (ks : list (token_type * bytes)) : nat * nat :=
  match ks with
  | [] => (line, col)
  | (TEof, _) :: ks => place line col ks
  | (TNewLineChar, _) :: ks => place (S line) 1 ks
  | (_, l) :: ks => place line (col + List.length l) ks
  end.
Lemma laid_app files k1 k2 : forall line col,
  laid files line col (k1 ++ k2) = laid files line col k1 ++ laid files (fst (place line col k1)) (snd (place line col k1)) k2.
Proof.
  induction k1 as [|[ty l] k1 IH]; intros line col; [reflexivity|]. destruct ty; cbn [app laid place]; rewrite IH; reflexivity.
Qed.
Lemma laid_lower files n ks : forall line col, laid files (n + line) col ks = map (lowered n) (laid files line col ks).
Proof.
  induction ks as [|[ty l] ks IH]; intros line col; [reflexivity|].
  destruct ty; cbn [laid map]; rewrite <- ?IH, ?Nat.add_succ_r; reflexivity.
Qed.
Lemma kinds_laid files ks : Forall (fun k => fst k = TEof -> snd k = []) ks -> forall line col, kinds (laid files line col ks) = ks.
Proof.
  induction 1 as [|[ty l] ks H F IH]; intros line col; [reflexivity|].
  destruct ty; cbn [laid kinds map ttype lexeme]; fold (kinds); f_equal; try apply IH. cbn in H. now rewrite H.
Qed.
Lemma tokenised_shape b s ks : tokenised b s ks -> exists k, ks = k ++ [(TEof, [])] /\ Forall (fun k => fst k <> TEof) k /\ List.concat (map snd k) = s.
Proof.
  induction 1 as [b|b ty l r ks G N1 N2 T (k & -> & F & <-)]; [exists []; auto|].
  exists ((ty, l) :: k). split; [reflexivity|]. split; [|reflexivity]. constructor; [|exact F]. exact (grammar_not_eof _ _ _ _ G).
Qed.
Lemma shape_kinds k : Forall (fun k : token_type * bytes => fst k <> TEof) k -> Forall (fun k => fst k = TEof -> snd k = []) (k ++ [(TEof, [])]).
Proof.
  intros F. apply Forall_app. split; [|constructor; [reflexivity|constructor]]. apply Forall_forall. intros x Hx. rewrite Forall_forall in F.
  intros K. now elim (F _ Hx).
Qed.
Lemma laid_length files ks : forall line col, List.length (laid files line col ks) = List.length ks.
Proof. induction ks as [|[ty l] ks IH]; intros line col; [reflexivity|]. destruct ty; cbn; now rewrite IH. Qed.
Lemma newlines_laid files ks : forall line col, newlines (laid files line col ks) + line = fst (place line col ks).
Proof.
  induction ks as [|[ty l] ks IH]; intros line col; [reflexivity|]. unfold newlines in *.
  destruct ty; cbn [laid place filter ttype]; rewrite <- IH; try reflexivity. cbn [List.length]. lia.
Qed.
Lemma place_newline p l : forall line col, snd (place line col (p ++ [(TNewLineChar, l)])) = 1.
Proof. induction p as [|[ty l'] p IH]; intros line col; [reflexivity|]. destruct ty; cbn [app place]; apply IH. Qed.

(** ** Scans *)
Section Joined.
  Variables (a : bytes) (files : list bytes) (ts : list token) (e : token).
  Hypothesis (Ua : utf8 a) (Ea : ends [NL] a) (Sa : scan_with a files = Ok (ts ++ [e])) (Na : no_tags (ts ++ [e])).
  Lemma first_scan : exists k, tokenised [] a (k ++ [(TEof, [])]) /\ ts = laid files 1 1 k /\ Forall (fun k => fst k <> TEof) k
    /\ List.concat (map snd k) = a /\ kinds ts = k.
  Proof.
    destruct (proj1 (scan_is_grammar a files Ua (ts ++ [e])) (conj Sa Na)) as (ks & T & E).
    destruct (tokenised_shape _ _ _ T) as (k & -> & F & C). exists k. split; [exact T|].
    rewrite laid_app in E. cbn [laid] in E. apply app_inj_tail in E as [-> _]. split; [reflexivity|]. split; [exact F|]. split; [exact C|].
    apply kinds_laid. apply shape_kinds in F. now apply Forall_app in F.
  Qed.
  Lemma kinds_last_not ty k : kinds ts = k -> last_not ty ts <-> (forall p l, k <> p ++ [(ty, l)]).
  Proof.
    intros <-. unfold last_not, kinds. split.
    - intros H p l K. apply map_eq_app in K as (p' & t' & E & _ & K). destruct t' as [|t [|t2 t']]; try discriminate. injection K as K _.
      exact (H _ _ E K).
    - intros H p t -> K. apply (H (kinds p) (lexeme t)). rewrite map_app. cbn. now rewrite K.
  Qed.
  Lemma joined b tb : last_not THyperlink ts -> utf8 b -> scan_with b files = Ok tb -> no_tags tb ->
    exists tl, scan_with (a ++ b) files = Ok (ts ++ tl) /\ no_tags tl /\ kinds tl = kinds tb
      /\ (last_is TNewLineChar ts -> tl = map (lowered (newlines ts)) tb).
  Proof.
    intros Hl Ub Sb Nb. destruct first_scan as (k & T & Et & F & C & Ek).
    destruct (proj1 (scan_is_grammar b files Ub tb) (conj Sb Nb)) as (kb & Tb & Eb).
    pose proof (proj1 (kinds_last_not THyperlink k Ek) Hl) as Hl'. clear Hl. rename Hl' into Hl.
    pose proof (tokenised_app [] a k T (or_introl Ea) Hl b kb) as TT. cbn [app] in TT.
    specialize (TT ltac:(rewrite <- (app_nil_r a); now apply tokenised_after)).
    destruct (proj2 (scan_is_grammar (a ++ b) files (utf8_app _ _ Ua Ub) (laid files 1 1 (k ++ kb))) (ex_intro _ _ (conj TT eq_refl))) as [Sab Nab].
    rewrite laid_app, <- Et in Sab, Nab. eexists. split; [exact Sab|]. split; [now apply Forall_app in Nab|].
    destruct (tokenised_shape _ _ _ Tb) as (k' & -> & F' & _). apply shape_kinds in F'. split; [rewrite Eb, !kinds_laid by exact F'; reflexivity|].
    intros (p & t & Ep & Ht). rewrite Eb, <- laid_lower. rewrite Et, newlines_laid.
    rewrite Ep in Ek. unfold kinds in Ek. rewrite map_app in Ek. cbn in Ek. rewrite Ht in Ek. now rewrite <- Ek, place_newline.
  Qed.
  Lemma tokenised_at ks : forall b s k1 ty l k2, ks = k1 ++ (ty, l) :: k2 -> tokenised b s ks -> ty <> TEof ->
    exists r, s = List.concat (map snd k1) ++ l ++ r /\ grammar (b ++ List.concat (map snd k1)) ty l r.
  Proof.
    clear. intros b s k1. revert ks b s. induction k1 as [|[ty1 l1] k1 IH]; intros ks b s ty l k2 -> T Ht.
    - cbn in *. inversion T as [c E1 E2 E3|c ty' l' r' ks' G N1 N2 T' E1 E2 E3]; subst; [now elim Ht|]. exists r'. rewrite app_nil_r. auto.
    - cbn in *. inversion T as [c E1 E2 E3|c ty' l' r' ks' G N1 N2 T' E1 E2 E3]; subst; [destruct k1; discriminate|].
      destruct (IH _ _ _ ty l k2 eq_refl T' Ht) as (r & -> & G'). exists r. rewrite <- !app_assoc in *. auto.
  Qed.
  (** a link at the end goes on *)
  Lemma joined_only : (forall b tb, utf8 b -> scan_with b files = Ok tb -> no_tags tb ->
      exists tl, scan_with (a ++ b) files = Ok (ts ++ tl) /\ kinds tl = kinds tb) -> last_not THyperlink ts.
  Proof.
    intros H p t Ep Ht.
    assert (utf8 (bs "a")) as Ub by (constructor; [split; cbv; discriminate | constructor]).
    assert (exists tb, scan_with (bs "a") files = Ok tb /\ no_tags tb /\ kinds tb = [(Token.TText, bs "a"); (TEof, [])]) as (tb & Sb & Nb & Kb).
    { eexists. split; [vm_compute; reflexivity|]. split; [repeat constructor; intros [K|K]; discriminate | reflexivity]. }
    destruct (H (bs "a") tb Ub Sb Nb) as (tl & Sab & Kl).
    assert (no_tags (ts ++ tl)) as Nab.
    { apply Forall_app. split; [now apply Forall_app in Na|]. rewrite Kb in Kl. destruct tl as [|t1 [|t2 [|t3 tl]]]; try discriminate Kl.
      injection Kl as K1 _ K2 _. constructor; [|constructor; [|constructor]]; unfold is_tag; [rewrite K1 | rewrite K2]; intros [Q|Q]; discriminate. }
    destruct first_scan as (k & T & Et & F & C & Ek).
    destruct (proj1 (scan_is_grammar (a ++ bs "a") files (utf8_app _ _ Ua Ub) (ts ++ tl)) (conj Sab Nab)) as (kk & TT & EE).
    destruct (tokenised_shape _ _ _ TT) as (k' & Ek' & F' & _). apply shape_kinds in F'.
    assert (kk = k ++ kinds tl) as Ekk.
    { rewrite Ek' in EE |- *. pose proof (f_equal kinds EE) as Q. rewrite kinds_laid in Q by exact F'. unfold kinds in *. rewrite map_app, Ek in Q. auto. }
    assert (k = kinds p ++ [(THyperlink, lexeme t)]) as Ep' by (rewrite <- Ek, Ep; unfold kinds; rewrite map_app; cbn; now rewrite Ht).
    rewrite Ep' in Ekk. rewrite <- app_assoc in Ekk. cbn in Ekk.
    destruct (tokenised_at _ _ _ _ _ _ _ Ekk TT ltac:(discriminate)) as (r & Er & G).
    assert (r = bs "a") as ->.
    { rewrite <- C, Ep', map_app, concat_app in Er. cbn [map List.concat snd] in Er. rewrite app_nil_r, <- app_assoc in Er.
      apply app_inv_head, app_inv_head in Er. auto. }
    inversion G as [ty l' r' M L|l' r' W B|l' r' P Sp|l' r' H1|l' r' H1 H2]; subst. cbn [lexed] in L. destruct L as (_ & _ & [L|(y & r & L & Q)] & _); [discriminate|].
    injection L as <- <-. unfold punctuation in Q. cbn in Q. intuition discriminate.
  Qed.
  (** ** What the text of the first source tells *)
  Lemma last_token : exists p t, ts = p ++ [t] /\ ends [NL] (lexeme t) /\ a = List.concat (map snd (kinds p)) ++ lexeme t
    /\ grammar (List.concat (map snd (kinds p))) (ttype t) (lexeme t) [].
  Proof.
    destruct first_scan as (k & T & Et & F & C & Ek).
    assert (ts <> []) as Hn.
    { intros K. rewrite K in Ek. cbn in Ek. subst k. cbn in C. apply (ended_some a Ea). now rewrite <- C. }
    destruct (exists_last Hn) as (p & t & Ep). exists p, t. split; [exact Ep|].
    assert (k = kinds p ++ [(ttype t, lexeme t)]) as Ep' by (rewrite <- Ek, Ep; unfold kinds; now rewrite map_app).
    rewrite Ep' in T. rewrite <- app_assoc in T. cbn in T.
    assert (ttype t <> TEof) as Ht by (rewrite Ep' in F; apply Forall_app in F as [_ F]; now inversion F).
    destruct (tokenised_at _ _ _ _ _ _ _ eq_refl T Ht) as (r & Er & G).
    assert (r = []) as ->.
    { rewrite <- C, Ep', map_app, concat_app in Er. cbn [map List.concat snd] in Er. rewrite app_nil_r in Er.
      apply app_inv_head in Er. rewrite <- (app_nil_r (lexeme t)) in Er at 1. apply app_inv_head in Er. auto. }
    rewrite app_nil_r in Er. split; [|split; [exact Er | exact G]].
    apply (ended_tail (List.concat (map snd (kinds p)))); [now rewrite <- Er|]. exact (grammar_some _ _ _ _ G).
  Qed.
  Lemma last_unlinked : ~ occurs (bs "http") a -> last_not THyperlink ts.
  Proof.
    intros Hh q u Eq Hu. destruct last_token as (p & t & Ep & _ & E & G). rewrite Eq in Ep. apply app_inj_tail in Ep as [-> ->]. rewrite Hu in G.
    inversion G as [ty l' r' M L|l' r' W B|l' r' P Sp|l' r' H1|l' r' H1 H2]; subst. cbn [lexed] in L. destruct L as ((r & L) & _).
    apply Hh. exists (List.concat (map snd (kinds p))), r. now rewrite <- L.
  Qed.
  Lemma last_newline : ~ occurs (bs "http") a -> ~ ends [":"; NL] a -> ~ ends ["="; NL] a -> last_is TNewLineChar ts.
  Proof.
    intros Hh H1 H2. pose proof (last_unlinked Hh) as Hl. destruct last_token as (p & t & Ep & Ht & E & G). exists p, t. split; [exact Ep|].
    assert (forall w x, lexeme t = w ++ [x; NL] -> x <> ":" /\ x <> "=") as Q.
    { intros w x K. rewrite K, app_assoc in E. split; intros ->; [apply H1 | apply H2]; eexists; exact E. }
    assert (forall n b, n <> 0 -> heading n b (lexeme t) -> False) as Hd.
    { intros n b Hn (_ & x & K & _). rewrite K in Ht. apply ended_last in Ht. rewrite last_last in Ht. subst x. destruct n as [|n]; [easy|].
      replace (repeat "=" (S n)) with (repeat "=" n ++ ["="]) in K by (symmetry; apply (repeat_cons n "=")). rewrite <- app_assoc in K. cbn in K. apply Q in K as [_ K]. now apply K. }
    inversion G as [ty l' r' M L|l' r' W B|l' r' P Sp|l' r' H3|l' r' H3 H4]; subst.
    - pose proof (eats _ _ _ _ M L Ht) as K. destruct (ttype t) eqn:Ety; try discriminate K; try reflexivity; exfalso; cbn [lexed] in L.
      all: try solve [eapply Hd; [|exact L]; discriminate].
      + destruct L as ([L|L] & _); [rewrite L in Ht; apply ended_last in Ht; discriminate Ht|]. destruct (Q [":"] ":" L) as [Q1 _]. now apply Q1.
      + exact (Hl p t eq_refl Ety).
    - exfalso. now apply wrapped_end in W.
    - exfalso. apply Sp. rewrite app_nil_r. destruct P as (x & v & Ex & Hv & _). destruct Ht as (w & Ht). rewrite Ht in Ex |- *.
      destruct w as [|x' w]; cbn in Ex; injection Ex as <- <-.
      + left. exists TNewLineChar, ["010"], []. split; [reflexivity|]. split; [unfold markup; cbn; intuition discriminate | reflexivity].
      + exfalso. apply (Hv NL); [apply in_app_iff; right; now left | now left].
    - exfalso. destruct H3 as [(x & K & _)|[(x & K & _) _]]; rewrite K in Ht; rewrite app_assoc in Ht; apply ended_last in Ht; rewrite last_last in Ht; discriminate Ht.
    - exfalso. destruct H3 as (x & K & _); rewrite K in Ht; rewrite app_assoc in Ht; apply ended_last in Ht; rewrite last_last in Ht; discriminate Ht.
  Qed.
  Lemma joined_lines b tb : ~ occurs (bs "http") a -> ~ ends [":"; NL] a -> ~ ends ["="; NL] a -> utf8 b -> scan_with b files = Ok tb -> no_tags tb ->
    scan_with (a ++ b) files = Ok (ts ++ map (lowered (newlines ts)) tb).
  Proof.
    intros Hh H1 H2 Ub Sb Nb. destruct (joined b tb (last_unlinked Hh) Ub Sb Nb) as (tl & Sab & _ & _ & K).
    now rewrite <- (K (last_newline Hh H1 H2)).
  Qed.
  Lemma joined_gets b : last_not THyperlink ts -> gets (a ++ b) a.
  Proof.
    intros Hl. destruct first_scan as (k & T & Et & F & C & Ek). pose proof (proj1 (kinds_last_not THyperlink k Ek) Hl) as Hl'. clear Hl. rename Hl' into Hl.
    exact (gets_app (a ++ b) b [] a k T (or_introl Ea) Hl eq_refl (gets_front _)).
  Qed.
  Lemma joined_tagless b : last_not THyperlink ts -> tagless (a ++ b) -> tagless b.
  Proof.
    intros Hl Ht c rest K E. apply (Ht (a ++ c) rest); [|rewrite E at 1; now rewrite app_assoc].
    apply gets_after; [exact Ea | now apply joined_gets | exact K].
  Qed.
  Lemma joined_fails b : last_not THyperlink ts -> utf8 b -> tagless (a ++ b) ->
    (scan_with b files = Panic -> scan_with (a ++ b) files = Panic)
    /\ (scan_with b files = Hang -> scan_with (a ++ b) files = Hang)
    /\ (forall x, scan_with b files = Err x -> exists y, scan_with (a ++ b) files = Err y).
  Proof.
    intros Hl Ub Ht. pose proof (joined_tagless b Hl Ht) as Hb. pose proof (utf8_app _ _ Ua Ub) as Uab.
    assert (forall c rest, gets b c -> b = c ++ rest -> gets (a ++ b) (a ++ c) /\ a ++ b = (a ++ c) ++ rest) as Q.
    { intros c rest K E. split; [apply gets_after; [exact Ea | now apply joined_gets | exact K]|]. rewrite E at 1. now rewrite app_assoc. }
    assert (forall c, alike c (a ++ c)) as A by (intros c; apply alike_sym; now apply alike_after).
    split; [|split].
    - intros K. apply (scan_panics b files Ub Hb) in K as (c & rest & G & E & B). apply (scan_panics (a ++ b) files Uab Ht).
      destruct (Q c rest G E) as [Q1 Q2]. exists (a ++ c), rest. split; [exact Q1|]. split; [exact Q2|]. exact (breaks_alike _ _ _ (A c) B).
    - intros K. apply (scan_hangs b files Ub Hb) in K as (c & rest & G & E & B). apply (scan_hangs (a ++ b) files Uab Ht).
      destruct (Q c rest G E) as [Q1 Q2]. exists (a ++ c), rest. split; [exact Q1|]. split; [exact Q2|]. exact (unclosed_alike _ _ _ (A c) B).
    - intros x K. destruct (proj1 (scan_errs b files Ub Hb) (ex_intro _ x K)) as (c & rest & G & E & B). apply (scan_errs (a ++ b) files Uab Ht).
      destruct (Q c rest G E) as [Q1 Q2]. exists (a ++ c), rest. split; [exact Q1|]. split; [exact Q2|]. exact (deep_alike _ _ _ (A c) B).
  Qed.
End Joined.
Lemma joined_exactly a files ts e : utf8 a -> ends [NL] a -> scan_with a files = Ok (ts ++ [e]) -> no_tags (ts ++ [e]) ->
  (last_not THyperlink ts
   <-> forall b tb, utf8 b -> scan_with b files = Ok tb -> no_tags tb ->
       exists tl, scan_with (a ++ b) files = Ok (ts ++ tl) /\ kinds tl = kinds tb).
Proof.
  intros U E Sa N. split.
  - intros H b tb Ub Sb Nb. destruct (joined a files ts e U E Sa N b tb H Ub Sb Nb) as (tl & P & _ & Q & _). eauto.
  - exact (joined_only a files ts e U E Sa N).
Qed.
