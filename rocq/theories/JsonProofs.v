(** * Lemmas for the JSON output *)
From Verif Require Import Base World Location Token Scanner Meta Inline Block Asg Parser Json SpecLevel SpecGraph SpecJson LevelProofs
  TreeInd NoteProofs GraphProofs.
Local Open Scope char_scope.
Local Open Scope nat_scope.
Local Arguments dec : simpl never.
Local Arguments indent : simpl never.
Local Arguments json_quote : simpl never.

Section Json_ind.
  Variable P : json -> Prop.
  Hypothesis Hs : forall s, P (JStr s).
  Hypothesis Hn : forall n, P (JNum n).
  Hypothesis Ha : forall l, Forall P l -> P (JArr l).
  Hypothesis Ho : forall l, Forall (fun kv => P (snd kv)) l -> P (JObj l).
  Fixpoint json_tree (j : json) : P j :=
    match j with
    | JStr s => Hs s
    | JNum n => Hn n
    | JArr l => Ha l ((fix go l := match l return Forall P l with [] => Forall_nil _ | x :: r => Forall_cons _ (json_tree x) (go r) end) l)
    | JObj l => Ho l ((fix go l := match l return Forall (fun kv => P (snd kv)) l with
                                   | [] => Forall_nil _
                                   | x :: r => Forall_cons _ (json_tree (snd x)) (go r)
                                   end) l)
    end.
End Json_ind.

(** ** The printer writes JSON *)
Lemma dec_fuel_head f : forall n, n < f -> exists c s, dec_fuel f n = c :: s /\ (c = "0" -> n = 0).
Proof.
  induction f as [|f IH]; intros n H; [lia|]. cbn [dec_fuel]. destruct (n <? 10) eqn:E.
  - apply Nat.ltb_lt in E. exists (chr (48 + n)), []. split; [reflexivity|].
    do 10 (destruct n as [|n]; [intros X; vm_compute in X; try discriminate X; reflexivity|]). lia.
  - apply Nat.ltb_ge in E. destruct (IH (n / 10)) as (c & s & -> & K).
    { apply Nat.div_lt_upper_bound; lia. }
    eexists _, _. split; [reflexivity|]. intros X. specialize (K X). apply Nat.div_small_iff in K; lia.
Qed.
Lemma dec_value n : value (dec n) (JNum n).
Proof.
  unfold dec. destruct (dec_fuel_head (S n) n) as (c & s & E & K); [lia|].
  pose proof (dec_fuel_val (S n) n ltac:(lia)) as V. rewrite E in *. destruct (Ascii.ascii_dec c "0") as [->|N].
  - specialize (K eq_refl). subst n. vm_compute in E. injection E as <-. constructor.
  - apply va_number; [assumption|]. apply decimal_val. split; [discriminate|assumption].
Qed.
Lemma escape_characters s : characters (List.concat (map json_escape_char s)) s.
Proof.
  induction s as [|c s IH]; [constructor|]. cbn [map List.concat].
  assert (forall h n, hex4 h n -> (n < 128)%N -> c = ascii_of_N n -> characters ((bs "\u" ++ h) ++ List.concat (map json_escape_char s)) (c :: s)) as U.
  { intros h n H L E. rewrite <- app_assoc. replace (c :: s) with (code_point n ++ s).
    - apply ch_code; [assumption|lia|assumption].
    - unfold code_point. apply N.ltb_lt in L. rewrite L. cbn. now rewrite <- E. }
  destruct c as [[] [] [] [] [] [] [] []];
    first [ apply ch_self; [vm_compute; discriminate|discriminate|discriminate|exact IH]
          | apply (ch_short DQ DQ); [cbn; tauto|exact IH]
          | apply (ch_short "\" "\"); [cbn; tauto|exact IH]
          | apply (ch_short "b" "008"); [cbn; tauto|exact IH]
          | apply (ch_short "t" "009"); [cbn; tauto|exact IH]
          | apply (ch_short "n" "010"); [cbn; tauto|exact IH]
          | apply (ch_short "f" "012"); [cbn; tauto|exact IH]
          | apply (ch_short "r" "013"); [cbn; tauto|exact IH]
          | match goal with |- characters (json_escape_char ?c ++ ?r) _ =>
              let e := eval vm_compute in (json_escape_char c) in
              let n := eval vm_compute in (N_of_ascii c) in
              let i := eval vm_compute in (n / 16)%N in
              let l := eval vm_compute in (n mod 16)%N in
              match e with (?b :: ?u :: ?h) =>
                refine (U h n (hex_digits _ _ _ _ 0%N 0%N i l _ _ _ _) _ _); try reflexivity; vm_compute; tauto
              end
            end ].
Qed.
Lemma blank_app a b : blank a -> blank b -> blank (a ++ b).
Proof. intros A B. apply Forall_app. now split. Qed.
Lemma blank_indent n : blank (indent n).
Proof.
  induction n as [|n IH]; [constructor|]. unfold indent in *. cbn [repeat List.concat]. apply blank_app; [|exact IH].
  repeat (apply Forall_cons; [cbn; tauto|]). constructor.
Qed.
Lemma blank_nl : blank [NL].
Proof. apply Forall_cons; [cbn; tauto|constructor]. Qed.
Lemma blank_sp : blank [SP].
Proof. apply Forall_cons; [cbn; tauto|constructor]. Qed.
Definition printed (j : json) : Prop := forall n, value (json_pretty n j) j.
Lemma put_elements n l : Forall printed l -> l <> [] -> forall a b, blank a -> blank b ->
  elements (a ++ join (bs "," ++ [NL]) (map (fun x => indent n ++ x) (map (json_pretty n) l)) ++ b) l.
Proof.
  induction 1 as [|j l Hj Hl IH]; intros N a b A B; [congruence|]. destruct l as [|j' l].
  - cbn [map join]. rewrite <- app_assoc, app_assoc. apply el_one; [apply blank_app; [assumption|apply blank_indent]|apply Hj|assumption].
  - specialize (IH ltac:(discriminate) [NL] b blank_nl B). set (k := j' :: l) in *.
    assert (join (bs "," ++ [NL]) (map (fun x => indent n ++ x) (map (json_pretty n) (j :: k)))
            = (indent n ++ json_pretty n j) ++ "," :: NL :: join (bs "," ++ [NL]) (map (fun x => indent n ++ x) (map (json_pretty n) k))) as -> by reflexivity.
    replace (a ++ ((indent n ++ json_pretty n j) ++ "," :: NL :: join (bs "," ++ [NL]) (map (fun x => indent n ++ x) (map (json_pretty n) k))) ++ b)
      with ((a ++ indent n) ++ json_pretty n j ++ [] ++ "," :: ([NL] ++ join (bs "," ++ [NL]) (map (fun x => indent n ++ x) (map (json_pretty n) k)) ++ b))
      by (now rewrite <- ?app_assoc; cbn [app]; rewrite <- ?app_assoc; cbn [app]; rewrite <- ?app_assoc).
    apply el_more; [apply blank_app; [assumption|apply blank_indent]|apply Hj|constructor|exact IH].
Qed.
Definition member (n : nat) (kv : bytes * json) : bytes := json_quote (fst kv) ++ bs ": " ++ json_pretty n (snd kv).
Lemma put_members n l : Forall (fun kv => printed (snd kv)) l -> l <> [] -> forall a b, blank a -> blank b ->
  members (a ++ join (bs "," ++ [NL]) (map (fun x => indent n ++ x) (map (member n) l)) ++ b) l.
Proof.
  induction 1 as [|[k j] l Hj Hl IH]; intros N a b A B; [congruence|].
  assert (forall r, member n (k, j) ++ r = DQ :: List.concat (map json_escape_char k) ++ DQ :: [] ++ ":" :: [SP] ++ json_pretty n j ++ r) as M.
  { intros r. unfold member, json_quote. cbn [fst snd]. now rewrite <- ?app_assoc; cbn [app]; rewrite <- ?app_assoc. }
  destruct l as [|j' l].
  - cbn [map join]. rewrite <- app_assoc, app_assoc, M.
    apply me_one; [apply blank_app; [assumption|apply blank_indent]|apply escape_characters|constructor|apply blank_sp|apply Hj|assumption].
  - specialize (IH ltac:(discriminate) [NL] b blank_nl B). set (m := j' :: l) in *.
    assert (join (bs "," ++ [NL]) (map (fun x => indent n ++ x) (map (member n) ((k, j) :: m)))
            = (indent n ++ member n (k, j)) ++ "," :: NL :: join (bs "," ++ [NL]) (map (fun x => indent n ++ x) (map (member n) m))) as -> by reflexivity.
    replace (a ++ ((indent n ++ member n (k, j)) ++ "," :: NL :: join (bs "," ++ [NL]) (map (fun x => indent n ++ x) (map (member n) m))) ++ b)
      with ((a ++ indent n) ++ member n (k, j) ++ [] ++ "," :: ([NL] ++ join (bs "," ++ [NL]) (map (fun x => indent n ++ x) (map (member n) m)) ++ b))
      by (now rewrite <- ?app_assoc; cbn [app]; rewrite <- ?app_assoc; cbn [app]; rewrite <- ?app_assoc).
    rewrite M. apply me_more; [apply blank_app; [assumption|apply blank_indent]|apply escape_characters|constructor|apply blank_sp|apply Hj|constructor|exact IH].
Qed.
Lemma pretty_value j : printed j.
Proof.
  induction j as [s|k|l IH|l IH] using json_tree; intros n; cbn [json_pretty].
  - apply va_string, escape_characters.
  - apply dec_value.
  - destruct l as [|x l]; [apply (va_empty_array []); constructor|].
    assert (forall r, bs "[" ++ r ++ bs "]" = "[" :: r ++ ["]"]) as -> by reflexivity. apply va_array.
    assert (x :: l <> []) as N by discriminate. pose proof (put_elements (S n) _ IH N [NL] (NL :: indent n) blank_nl) as K.
    apply K. apply Forall_cons; [cbn; tauto|apply blank_indent].
  - destruct l as [|x l]; [apply (va_empty_object []); constructor|].
    assert (forall r, bs "{" ++ r ++ bs "}" = "{" :: r ++ ["}"]) as -> by reflexivity. apply va_object.
    assert (x :: l <> []) as N by discriminate. pose proof (put_members (S n) _ IH N [NL] (NL :: indent n) blank_nl) as K.
    apply K. apply Forall_cons; [cbn; tauto|apply blank_indent].
Qed.
Lemma render_json_text a : json_text (render_json a) (json_of_asg a).
Proof. exists [], (render_json a), []. rewrite app_nil_r. repeat split; [constructor|apply pretty_value|constructor]. Qed.

(** ** A text is JSON in one way only *)
Lemma table_once {A B} (l : list (A * B)) a b b' : NoDup (map fst l) -> In (a, b) l -> In (a, b') l -> b = b'.
Proof.
  induction l as [|[x y] l IH]; cbn; [tauto|]. intros N. apply NoDup_cons_iff in N as [N1 N2].
  intros [E|H] [E'|H'].
  - congruence.
  - exfalso. apply N1. injection E as -> ->. now apply (in_map fst) in H'.
  - exfalso. apply N1. injection E' as -> ->. now apply (in_map fst) in H.
  - now apply IH.
Qed.
Ltac nodup := repeat (apply NoDup_cons; [cbn; intros X; repeat destruct X as [X|X]; try discriminate X; exact X|]); apply NoDup_nil.
Lemma hex_once c n n' : hex c n -> hex c n' -> n = n'.
Proof. apply table_once. cbn. nodup. Qed.
Lemma hex4_once h h' n n' r r' : hex4 h n -> hex4 h' n' -> h ++ r = h' ++ r' -> h = h' /\ n = n' /\ r = r'.
Proof.
  intros [a b c d i j k l A B C D] [a' b' c' d' i' j' k' l' A' B' C' D'] E. cbn [app] in E. injection E as -> -> -> -> ->.
  rewrite (hex_once _ _ _ A A'), (hex_once _ _ _ B B'), (hex_once _ _ _ C C'), (hex_once _ _ _ D D'). auto.
Qed.
Definition shorts : list (ascii * ascii) :=
  [(DQ, DQ); ("\", "\"); ("/", "/"); ("b", "008"); ("f", "012"); ("n", "010"); ("r", "013"); ("t", "009")].
Lemma short_u d : ~ In ("u", d) shorts.
Proof. cbn. intros X. repeat destruct X as [X|X]; try discriminate X; exact X. Qed.
Lemma characters_once s t : characters s t -> forall s' t' r r', characters s' t' -> s ++ DQ :: r = s' ++ DQ :: r' -> s = s' /\ t = t' /\ r = r'.
Proof.
  induction 1 as [|c s t L N1 N2 _ IH|c d s t I _ IH|h n s t Hh R _ IH|h n h1 n1 s t Hh R Hh1 R1 _ IH];
    intros s' t' r r' C E;
    destruct C as [|c' s' t' L' N1' N2' C|c' d' s' t' I' C|h' n' s' t' Hh' R' C|h' n' h1' n1' s' t' Hh' R' Hh1' R1' C];
    cbn [app bs] in E; try (injection E; intros; congruence);
    try (exfalso; injection E; intros; subst; eapply short_u; eassumption).
  - injection E as ->. auto.
  - injection E as -> E. destruct (IH _ _ _ _ C E) as (-> & -> & ->). auto.
  - injection E as -> E. destruct (IH _ _ _ _ C E) as (-> & -> & ->).
    assert (d = d') as ->; [|auto]. eapply (table_once shorts); [|exact I|exact I']. cbn. nodup.
  - injection E as E. rewrite <- !app_assoc in E. destruct (hex4_once _ _ _ _ _ _ Hh Hh' E) as (-> & -> & E').
    destruct (IH _ _ _ _ C E') as (-> & -> & ->). auto.
  - exfalso. injection E as E. rewrite <- !app_assoc in E. destruct (hex4_once _ _ _ _ _ _ Hh Hh' E) as (_ & -> & _). lia.
  - exfalso. injection E as E. rewrite <- !app_assoc in E. destruct (hex4_once _ _ _ _ _ _ Hh Hh' E) as (_ & -> & _). lia.
  - injection E as E. rewrite <- !app_assoc in E. destruct (hex4_once _ _ _ _ _ _ Hh Hh' E) as (-> & -> & E').
    cbn [app bs] in E'. injection E' as E'. rewrite <- !app_assoc in E'. destruct (hex4_once _ _ _ _ _ _ Hh1 Hh1' E') as (-> & -> & E2).
    destruct (IH _ _ _ _ C E2) as (-> & -> & ->). auto.
Qed.
Definition solid (s : bytes) : Prop := match s with c :: _ => ~ In c [" "; "009"; "010"; "013"] | [] => True end.
Lemma blank_once a : blank a -> forall a' x x', blank a' -> a ++ x = a' ++ x' -> solid x -> solid x' -> a = a' /\ x = x'.
Proof.
  induction 1 as [|c a Hc _ IH]; intros a' x x' B E S S'.
  - destruct B as [|c' a' Hc' B]; [now split|]. cbn in E. subst x. cbn in S. now contradiction S.
  - destruct B as [|c' a' Hc' B]; cbn in E; [subst x'; cbn in S'; now contradiction S'|].
    injection E as -> E. destruct (IH _ _ _ B E S S') as [-> ->]. auto.
Qed.
Definition stop (s : bytes) : Prop := match s with c :: _ => is_digit c = false | [] => True end.
Lemma blank_stop a r : blank a -> stop r -> stop (a ++ r).
Proof.
  intros [|c a' H _] S; [exact S|]. cbn in *. repeat destruct H as [<-|H]; try reflexivity. contradiction.
Qed.
(** how a value starts *)
Lemma decimal_digits s n : decimal s n -> Forall (fun c => is_digit c = true) s.
Proof.
  intros H. apply decimal_val in H as [_ H]. revert H. generalize 0%N. induction s as [|c s IH]; intros a H; [constructor|].
  cbn in H. destruct (is_digit c) eqn:E; [|discriminate]. constructor; [assumption|]. now apply (IH _ H).
Qed.
Lemma value_start s j : value s j -> exists c r, s = c :: r /\ (c = DQ \/ is_digit c = true \/ c = "[" \/ c = "{").
Proof.
  intros [s' t _| |c s' n _ D|s' _|s' l _|s' _|s' l _]; eexists _, _; (split; [reflexivity|]); auto.
  apply decimal_digits in D. apply Forall_inv in D. auto.
Qed.
Lemma digit_no c x : is_digit c = true -> is_digit x = false -> c <> x.
Proof. congruence. Qed.
Lemma value_solid s j r : value s j -> solid (s ++ r).
Proof.
  intros V. destruct (value_start _ _ V) as (c & s' & -> & H). cbn. intros I.
  repeat destruct I as [<-|I]; try contradiction; destruct H as [H|[H|[H|H]]]; discriminate.
Qed.
Lemma value_not c s j : value (c :: s) j -> In c ["]"; "}"; ","] -> False.
Proof.
  intros V I. destruct (value_start _ _ V) as (c' & s' & E & H). injection E as -> <-.
  repeat destruct I as [<-|I]; try contradiction; destruct H as [H|[H|[H|H]]]; discriminate.
Qed.
Lemma digits_once s : forall s' r r', Forall (fun c => is_digit c = true) s -> Forall (fun c => is_digit c = true) s' ->
  s ++ r = s' ++ r' -> stop r -> stop r' -> s = s'.
Proof.
  induction s as [|c s IH]; intros s' r r' F F' E S S'.
  - destruct s' as [|c' s']; [reflexivity|]. cbn in E. subst r. cbn in S. apply Forall_inv in F'. congruence.
  - destruct s' as [|c' s']; cbn in E; [subst r'; cbn in S'; apply Forall_inv in F; congruence|].
    injection E as -> E. f_equal. eapply IH; [exact (Forall_inv_tail F)|exact (Forall_inv_tail F')|exact E|assumption|assumption].
Qed.
Lemma decimal_once s n n' : decimal s n -> decimal s n' -> n = n'.
Proof. intros H H'. apply decimal_val in H as [_ H], H' as [_ H']. congruence. Qed.

Scheme value_mut := Induction for value Sort Prop
  with elements_mut := Induction for elements Sort Prop
  with members_mut := Induction for members Sort Prop.
Combined Scheme values_mut from value_mut, elements_mut, members_mut.
Lemma numeral s n : value s (JNum n) -> Forall (fun c => is_digit c = true) s /\ decimal s (N.of_nat n).
Proof.
  intros V. inversion V as [| |c s' n' N D| | | |]; subst.
  - split; [repeat constructor|]. apply (decimal_one "0" 0). split; [reflexivity|]. lia.
  - split; [now apply decimal_digits in D|assumption].
Qed.
Lemma stop_close c r : In c ["]"; "}"; ","] -> stop (c :: r).
Proof. intros I. cbn. repeat destruct I as [<-|I]; try reflexivity. contradiction. Qed.
Lemma solid_close c r : In c ["]"; "}"; ","; ":"; DQ] -> solid (c :: r).
Proof. intros I. cbn. intros J. repeat destruct I as [<-|I]; try contradiction; repeat destruct J as [J|J]; try discriminate J; exact J. Qed.
(** blanks and a value, or blanks and a character of the syntax *)
Lemma led_once a a' s s' j j' x x' : blank a -> blank a' -> value s j -> value s' j' -> a ++ s ++ x = a' ++ s' ++ x' -> a = a' /\ s ++ x = s' ++ x'.
Proof. intros B B' V V' E. apply (blank_once _ B _ _ _ B' E); eapply value_solid; eassumption. Qed.
Lemma close_once a a' c c' x x' : a ++ c :: x = a' ++ c' :: x' -> blank a -> blank a' ->
  In c ["]"; "}"; ","; ":"; DQ] -> In c' ["]"; "}"; ","; ":"; DQ] -> a = a' /\ c = c' /\ x = x'.
Proof.
  intros E B B' I I'. destruct (blank_once _ B _ _ _ B' E) as [-> K]; [now apply solid_close|now apply solid_close|].
  injection K as -> ->. auto.
Qed.
Lemma not_blank_elements s l r r' a : blank a -> elements s l -> a ++ "]" :: r = s ++ "]" :: r' -> False.
Proof.
  intros B El E.
  assert (exists b v j x, blank b /\ value v j /\ s ++ "]" :: r' = b ++ v ++ x) as (b & v & j & x & B' & V & E').
  { destruct El as [b v c j Hb V Hc|b v c j r0 l Hb V Hc _]; eexists b, v, j, _; (split; [assumption|]; split; [exact V|]);
      rewrite <- !app_assoc; reflexivity. }
  rewrite E' in E. destruct (blank_once _ B _ _ _ B' E) as [_ K]; [now apply solid_close; left|now apply (value_solid _ j)|].
  destruct (value_start _ _ V) as (c & v' & -> & _). cbn [app] in K. injection K as <- _. apply (value_not _ _ _ V). now left.
Qed.
Lemma not_blank_members s l r r' a : blank a -> members s l -> a ++ "}" :: r = s ++ "}" :: r' -> False.
Proof.
  intros B El E.
  assert (exists b x, blank b /\ s ++ "}" :: r' = b ++ DQ :: x) as (b & x & B' & E').
  { destruct El as [b n b1 c v d k j Hb Hn Hb1 Hc V Hd|b n b1 c v d k j r0 l Hb Hn Hb1 Hc V Hd _]; eexists b, _; (split; [assumption|]);
      rewrite <- !app_assoc; reflexivity. }
  rewrite E' in E. destruct (close_once _ _ _ _ _ _ E B B') as (_ & K & _); [cbn; tauto|cbn; tauto|]. discriminate K.
Qed.
Lemma clash_number c s n x : decimal (c :: s) n -> c = x -> is_digit x = false -> False.
Proof. intros D -> F. apply decimal_digits in D. apply Forall_inv in D. congruence. Qed.
Ltac clash := match goal with
  | D : decimal (?c :: _) _, E : ?c :: _ = _ :: _ |- _ => exfalso; injection E; intros; eapply (clash_number _ _ _ _ D); [eassumption|reflexivity]
  | D : decimal (?c :: _) _, E : _ :: _ = ?c :: _ |- _ => exfalso; injection E; intros; eapply (clash_number _ _ _ _ D); [symmetry; eassumption|reflexivity]
  | E : _ :: _ = _ :: _ |- _ => discriminate E
  end.
Lemma values_once :
  (forall s j, value s j -> forall s' j' r r', value s' j' -> s ++ r = s' ++ r' -> stop r -> stop r' -> s = s' /\ j = j')
  /\ (forall s l, elements s l -> forall s' l' r r', elements s' l' -> s ++ "]" :: r = s' ++ "]" :: r' -> s = s' /\ l = l')
  /\ (forall s l, members s l -> forall s' l' r r', members s' l' -> s ++ "}" :: r = s' ++ "}" :: r' -> s = s' /\ l = l').
Proof.
  apply values_mut.
  - intros s t C s' j' r r' V E S S'. destruct V as [s' t' C'| |c s' n' N D|s' B|s' l El|s' B|s' l Me]; cbn [app] in E; try clash.
    injection E as E. rewrite <- !app_assoc in E. cbn [app] in E. destruct (characters_once _ _ C _ _ _ _ C' E) as (-> & -> & _). auto.
  - intros s' j' r r' V E S S'. destruct V as [s' t' C'| |c s' n' N D|s' B|s' l El|s' B|s' l Me]; cbn [app] in E; try clash; [auto|].
    injection E; intros. congruence.
  - intros c s n N D s' j' r r' V E S S'.
    destruct V as [s' t' C'| |c' s' n' N' D'|s' B|s' l El|s' B|s' l Me]; cbn [app] in E; try clash.
    + injection E; intros. congruence.
    + assert (c :: s = c' :: s') as X.
      { eapply digits_once; [apply (decimal_digits _ _ D)|apply (decimal_digits _ _ D')|exact E|assumption|assumption]. }
      rewrite X in D |- *. split; [reflexivity|]. f_equal. pose proof (decimal_once _ _ _ D D'). lia.
  - intros s B s' j' r r' V E S S'. destruct V as [s' t' C'| |c s' n' N D|s' B'|s' l El|s' B'|s' l Me]; cbn [app] in E; try clash;
      injection E as E; rewrite <- !app_assoc in E; cbn [app] in E.
    + destruct (close_once _ _ _ _ _ _ E B B') as (-> & _); [cbn; tauto|cbn; tauto|]. auto.
    + exfalso. eapply not_blank_elements; eassumption.
  - intros s l El IH s' j' r r' V E S S'. destruct V as [s' t' C'| |c s' n' N D|s' B'|s' l' El'|s' B'|s' l' Me]; cbn [app] in E; try clash;
      injection E as E; rewrite <- !app_assoc in E; cbn [app] in E.
    + exfalso. symmetry in E. eapply not_blank_elements; eassumption.
    + destruct (IH _ _ _ _ El' E) as [-> ->]. auto.
  - intros s B s' j' r r' V E S S'. destruct V as [s' t' C'| |c s' n' N D|s' B'|s' l El|s' B'|s' l Me]; cbn [app] in E; try clash;
      injection E as E; rewrite <- !app_assoc in E; cbn [app] in E.
    + destruct (close_once _ _ _ _ _ _ E B B') as (-> & _); [cbn; tauto|cbn; tauto|]. auto.
    + exfalso. eapply not_blank_members; eassumption.
  - intros s l Me IH s' j' r r' V E S S'. destruct V as [s' t' C'| |c s' n' N D|s' B'|s' l' El'|s' B'|s' l' Me']; cbn [app] in E; try clash;
      injection E as E; rewrite <- !app_assoc in E; cbn [app] in E.
    + exfalso. symmetry in E. eapply not_blank_members; eassumption.
    + destruct (IH _ _ _ _ Me' E) as [-> ->]. auto.
  - intros a s b j A V IH B s' l' r r' El E.
    destruct El as [a' s' b' j' A' V' B'|a' s' b' j' r0 l' A' V' B' El']; rewrite <- !app_assoc in E; cbn [app] in E;
      destruct (led_once _ _ _ _ _ _ _ _ A A' V V' E) as [-> E1];
      (destruct (IH _ _ _ _ V' E1) as [-> ->]; [apply blank_stop; [assumption|apply stop_close; cbn; tauto]..|]);
      apply app_inv_head in E1; destruct (close_once _ _ _ _ _ _ E1 B B') as (-> & X & _); try (cbn; tauto); first [discriminate X|now split].
  - intros a s b j r l A V IH B El IHl s' l' r1 r' El' E.
    destruct El' as [a' s' b' j' A' V' B'|a' s' b' j' r0 l' A' V' B' El']; rewrite <- !app_assoc in E; cbn [app] in E;
      destruct (led_once _ _ _ _ _ _ _ _ A A' V V' E) as [-> E1];
      (destruct (IH _ _ _ _ V' E1) as [-> ->]; [apply blank_stop; [assumption|apply stop_close; cbn; tauto]..|]);
      apply app_inv_head in E1; destruct (close_once _ _ _ _ _ _ E1 B B') as (-> & X & E2); try (cbn; tauto); try discriminate X.
    destruct (IHl _ _ _ _ El' E2) as [-> ->]. auto.
  - intros a n b c s d k j A C B Bc V IH D s' l' r r' Me E.
    destruct Me as [a' n' b' c' s' d' k' j' A' C' B' Bc' V' D'|a' n' b' c' s' d' k' j' r0 l' A' C' B' Bc' V' D' Me'];
      rewrite <- !app_assoc in E; cbn [app] in E; rewrite <- !app_assoc in E; cbn [app] in E;
      rewrite <- !app_assoc in E; cbn [app] in E; rewrite <- ?app_assoc in E; cbn [app] in E;
      (destruct (close_once _ _ _ _ _ _ E A A') as (-> & _ & E1); [cbn; tauto|cbn; tauto|]);
      destruct (characters_once _ _ C _ _ _ _ C' E1) as (-> & -> & E2);
      (destruct (close_once _ _ _ _ _ _ E2 B B') as (-> & _ & E3); [cbn; tauto|cbn; tauto|]);
      destruct (led_once _ _ _ _ _ _ _ _ Bc Bc' V V' E3) as [-> E4];
      (destruct (IH _ _ _ _ V' E4) as [-> ->]; [apply blank_stop; [assumption|apply stop_close; cbn; tauto]..|]);
      apply app_inv_head in E4; destruct (close_once _ _ _ _ _ _ E4 D D') as (-> & X & _); try (cbn; tauto); first [discriminate X|now split].
  - intros a n b c s d k j r l A C B Bc V IH D Me IHl s' l' r1 r' Me' E.
    destruct Me' as [a' n' b' c' s' d' k' j' A' C' B' Bc' V' D'|a' n' b' c' s' d' k' j' r0 l' A' C' B' Bc' V' D' Me'];
      rewrite <- !app_assoc in E; cbn [app] in E; rewrite <- !app_assoc in E; cbn [app] in E;
      rewrite <- !app_assoc in E; cbn [app] in E; rewrite <- ?app_assoc in E; cbn [app] in E;
      (destruct (close_once _ _ _ _ _ _ E A A') as (-> & _ & E1); [cbn; tauto|cbn; tauto|]);
      destruct (characters_once _ _ C _ _ _ _ C' E1) as (-> & -> & E2);
      (destruct (close_once _ _ _ _ _ _ E2 B B') as (-> & _ & E3); [cbn; tauto|cbn; tauto|]);
      destruct (led_once _ _ _ _ _ _ _ _ Bc Bc' V V' E3) as [-> E4];
      (destruct (IH _ _ _ _ V' E4) as [-> ->]; [apply blank_stop; [assumption|apply stop_close; cbn; tauto]..|]);
      apply app_inv_head in E4; destruct (close_once _ _ _ _ _ _ E4 D D') as (-> & X & E5); try (cbn; tauto); try discriminate X.
    destruct (IHl _ _ _ _ Me' E5) as [-> ->]. auto.
Qed.
Lemma json_once s j j' : json_text s j -> json_text s j' -> j = j'.
Proof.
  intros (a & t & b & E & A & V & B) (a' & t' & b' & E' & A' & V' & B'). rewrite E in E'.
  destruct (led_once _ _ _ _ _ _ _ _ A A' V V' E') as [_ K].
  eapply values_once; [exact V|exact V'|exact K|rewrite <- (app_nil_r b)|rewrite <- (app_nil_r b')]; now apply blank_stop.
Qed.

(** ** Names occur once *)
Lemma names_locs l : names_once (jlocs l).
Proof.
  apply no_arr. apply Forall_map, Forall_forall. intros x _. unfold json_of_loc. destruct (loc_file x) as [|f fs].
  - apply no_obj; [cbn; nodup|]. repeat constructor.
  - apply no_obj; [cbn; nodup|]. cbn [app]. repeat (apply Forall_cons; [constructor|]); [|constructor].
    apply Forall_map, Forall_forall. intros; constructor.
Qed.
Lemma names_strs l : names_once (JArr (map JStr l)).
Proof. apply no_arr. apply Forall_map, Forall_forall. intros; constructor. Qed.
Lemma names_map l : NoDup (map fst l) -> names_once (json_of_map l).
Proof.
  intros N. apply no_obj; [now rewrite map_map|]. apply Forall_map, Forall_forall. intros; constructor.
Qed.
Definition one_each (m : metadata) : Prop := NoDup (map fst (m_attrs m)).
Lemma names_meta m : one_each m -> names_once (json_of_meta m).
Proof.
  intros N. apply no_obj; [cbn; nodup|].
  repeat (apply Forall_cons; [cbn [snd]; first [now apply names_map|apply names_strs|apply names_locs]|]). constructor.
Qed.
Ltac objs := repeat first [apply Forall_nil | apply Forall_cons; [cbn [snd]; first [apply no_str|apply no_num|apply names_locs|now apply names_meta|idtac]|]].
Lemma inline_names i :
  (forall v f l m loc o, inline_within (ISpan v f l (Some m) loc o) i -> one_each m) ->
  (forall v t l m loc, inline_within (IRef v t l (Some m) loc) i -> one_each m) -> names_once (json_of_inline i).
Proof.
  induction i as [v f l m loc o IH|v t l m loc IH|n k v loc|loc] using inline_ind'; intros Hs Hr; cbn [json_of_inline].
  - assert (names_once (JArr (map json_of_inline l))) as K.
    { apply no_arr, Forall_map. rewrite Forall_forall in *. intros x I. apply IH; [assumption|..]; intros; [eapply Hs|eapply Hr]; eapply iw_span; eassumption. }
    destruct m as [m|].
    + assert (one_each m) as M by (eapply Hs; apply iw_self). apply no_obj; [cbn; nodup|]. cbn [app jmeta]. now objs.
    + apply no_obj; [cbn; nodup|]. cbn [app jmeta]. now objs.
  - assert (names_once (JArr (map json_of_inline l))) as K.
    { apply no_arr, Forall_map. rewrite Forall_forall in *. intros x I. apply IH; [assumption|..]; intros; [eapply Hs|eapply Hr]; eapply iw_ref; eassumption. }
    destruct m as [m|].
    + assert (one_each m) as M by (eapply Hr; apply iw_self). apply no_obj; [cbn; nodup|]. cbn [app jmeta]. now objs.
    + apply no_obj; [cbn; nodup|]. cbn [app jmeta]. now objs.
  - apply no_obj; [cbn; nodup|]. objs.
  - apply no_obj; [cbn; nodup|]. objs.
Qed.
Lemma inlines_names l :
  (forall t v f l' m loc o, In t l -> inline_within (ISpan v f l' (Some m) loc o) t -> one_each m) ->
  (forall t v t' l' m loc, In t l -> inline_within (IRef v t' l' (Some m) loc) t -> one_each m) -> names_once (jinlines l).
Proof.
  intros Hs Hr. apply no_arr, Forall_map, Forall_forall. intros i I. apply inline_names; intros; [eapply Hs|eapply Hr]; eassumption.
Qed.
(** all metadata in a block *)
Definition clean (b : block) : Prop :=
  (forall x m, within x b -> b_meta x = Some m -> one_each m)
  /\ (forall x t v f l m loc o, within x b -> In t (own_inlines x) -> inline_within (ISpan v f l (Some m) loc o) t -> one_each m)
  /\ (forall x t v t' l m loc, within x b -> In t (own_inlines x) -> inline_within (IRef v t' l (Some m) loc) t -> one_each m).
Ltac fields := cbn [jmeta opt_field app]; apply no_obj; [cbn; nodup|objs; try assumption].
Lemma block_names b : clean b -> names_once (json_of_block b).
Proof.
  induction b as [h m k loc IH] using block_ind'. intros (C1 & C2 & C3).
  assert (forall x, m = Some x -> one_each x) as M by (intros x ->; eapply C1; [apply within_self|reflexivity]).
  assert (names_once (JArr (map json_of_block k))) as K.
  { apply no_arr, Forall_map. rewrite Forall_forall in *. intros x I. apply IH; [assumption|].
    split; [|split]; intros; [eapply C1|eapply C2|eapply C3]; try eassumption; eapply within_kid; eassumption. }
  assert (forall l, incl l (own_inlines (Blk h m k loc)) -> names_once (jinlines l)) as J.
  { intros l S. apply inlines_names; intros; [eapply C2|eapply C3]; try eassumption; try apply within_self; now apply S. }
  assert (match m with Some x => one_each x | None => True end) as M' by (destruct m; auto). clear M.
  destruct h as [id t lv|v|mk p| |ts p|v|t cap|n f d l|n v d t|l]; cbn [json_of_block].
  - pose proof (J t (incl_refl _)). destruct id, m; fields.
  - destruct v, m; fields.
  - pose proof (J p (incl_refl _)). destruct k, m; fields.
  - destruct m; fields.
  - pose proof (J ts (incl_appl _ (incl_refl _))). pose proof (J p (incl_appr _ (incl_refl _))). destruct p, k, m; fields.
  - fields.
  - pose proof (J cap (incl_refl _)). destruct cap, m; fields.
  - pose proof (J l (incl_refl _)). destruct f, d, m; fields.
  - pose proof (J t (incl_refl _)). destruct v, d, t, m; fields.
  - pose proof (J l (incl_refl _)). destruct m; fields.
Qed.
Lemma graph_names a : (forall m, metadata_of a m -> one_each m) -> (forall l, a_attrs a = Some l -> NoDup (map fst l)) ->
  names_once (json_of_asg a).
Proof.
  intros M A.
  assert (names_once (JArr (map json_of_block (a_blocks a)))) as B.
  { apply no_arr, Forall_map, Forall_forall. intros b I. apply block_names.
    split; [|split]; intros; apply M.
    - eapply meta_block; [|eassumption]. eexists. split; eassumption.
    - eapply meta_span. eapply in_block; [|eassumption|eassumption]. eexists. split; eassumption.
    - eapply meta_ref. eapply in_block; [|eassumption|eassumption]. eexists. split; eassumption. }
  assert (forall h, a_header a = Some h -> names_once (json_of_header h)) as H.
  { intros h E. assert (names_once (jinlines (hd_title h))) as J.
    { apply inlines_names; intros; apply M; [eapply meta_span|eapply meta_ref]; eapply in_header; eassumption. }
    unfold json_of_header. fields. }
  unfold json_of_asg. destruct (a_attrs a) as [l|], (a_header a) as [h|]; cbn [app];
    try specialize (H _ eq_refl); try (specialize (A _ eq_refl); apply names_map in A); fields.
Qed.

(** ** What the JSON shows of a graph *)
Lemma map_same {A B C} (f : A -> B) (g : A -> C) l : Forall (fun x => forall y, f x = f y -> g x = g y) l ->
  forall l', map f l = map f l' -> map g l = map g l'.
Proof.
  induction 1 as [|x l H _ IH]; intros [|y l'] E; try discriminate E; [reflexivity|]. cbn in *. injection E as E1 E2.
  rewrite (H _ E1), (IH _ E2). reflexivity.
Qed.
Lemma map_id {A B} (f : A -> B) l l' : (forall x y, f x = f y -> x = y) -> map f l = map f l' -> l = l'.
Proof.
  intros H E. rewrite <- (map_id l), <- (map_id l'). revert l' E. apply map_same. apply Forall_forall. intros x _ y. apply H.
Qed.
Lemma jstr_inj s s' : JStr s = JStr s' -> s = s'.
Proof. congruence. Qed.
Lemma jstrs_inj l l' : map JStr l = map JStr l' -> l = l'.
Proof. apply map_id, jstr_inj. Qed.
Lemma loc_inj x y : json_of_loc x = json_of_loc y -> x = y.
Proof.
  destruct x as [a b f], y as [a' b' f']. unfold json_of_loc. cbn [loc_line loc_col loc_file]. intros E.
  destruct f as [|c f], f' as [|c' f']; injection E; intros; subst; try discriminate; [reflexivity|].
  match goal with H : map JStr _ = _ |- _ => apply jstrs_inj in H; subst end. reflexivity.
Qed.
Lemma jlocs_inj l l' : jlocs l = jlocs l' -> l = l'.
Proof. intros [= E]. revert E. apply map_id, loc_inj. Qed.
Lemma map_inj l l' : json_of_map l = json_of_map l' -> l = l'.
Proof. intros [= E]. revert E. apply map_id. intros [a b] [c d] [= -> ->]. reflexivity. Qed.
Lemma meta_inj m m' : json_of_meta m = json_of_meta m' -> seen_meta m = seen_meta m'.
Proof.
  unfold json_of_meta, seen_meta. intros E.
  assert (json_of_map (m_attrs m) = json_of_map (m_attrs m') /\ map JStr (m_options m) = map JStr (m_options m')
          /\ map JStr (m_roles m) = map JStr (m_roles m') /\ jlocs (m_loc m) = jlocs (m_loc m')) as (E1 & E2 & E3 & E4) by (repeat split; congruence).
  apply map_inj in E1. apply jstrs_inj in E2, E3. apply jlocs_inj in E4. congruence.
Qed.

(** fields of an object *)
Definition field (k : string) (j : json) : option json :=
  match j with JObj l => match find (fun kv => beqb (fst kv) (bs k)) l with Some (_, v) => Some v | None => None end | _ => None end.
Definition head_name (h : head) : bytes :=
  match h with
  | HSection _ _ _ => bs "section" | HList _ => bs "list" | HListItem _ _ => bs "listItem" | HDList => bs "dlist"
  | HDListItem _ _ => bs "dlistItem" | HBreak _ => bs "break" | HMacro _ _ => bs "image" | HLeaf n _ _ _ => leaf_name_name n
  | HParent n _ _ _ => parent_name_name n | HCell _ => bs "tableCell"
  end.
Lemma field_name b : field "name" (json_of_block b) = Some (JStr (head_name (b_head b))).
Proof. destruct b as [[] m k loc]; try reflexivity. now destruct v. Qed.
Lemma field_location b : field "location" (json_of_block b) = Some (jlocs (b_locs b)).
Proof.
  destruct b as [[id t lv|v|mk p| |ts p|v|t cap|n f d l|n v d t|l] m k loc]; cbn [json_of_block b_locs].
  - destruct id, m; reflexivity.
  - destruct v, m; reflexivity.
  - destruct k, m; reflexivity.
  - destruct m; reflexivity.
  - destruct p, k, m; reflexivity.
  - reflexivity.
  - destruct cap, m; reflexivity.
  - destruct f, d, m; reflexivity.
  - destruct v, d, t, m; reflexivity.
  - destruct m; reflexivity.
Qed.
Lemma field_meta b : field "metadata" (json_of_block b)
  = match b_head b with HBreak _ => None | _ => option_map json_of_meta (b_meta b) end.
Proof.
  destruct b as [[id t lv|v|mk p| |ts p|v|t cap|n f d l|n v d t|l] m k loc]; cbn [json_of_block b_meta b_head].
  - destruct id, m; reflexivity.
  - destruct v, m; reflexivity.
  - destruct k, m; reflexivity.
  - destruct m; reflexivity.
  - destruct p, k, m; reflexivity.
  - reflexivity.
  - destruct cap, m; reflexivity.
  - destruct f, d, m; reflexivity.
  - destruct v, d, t, m; reflexivity.
  - destruct m; reflexivity.
Qed.
Lemma opt_meta_inj m m' : option_map json_of_meta m = option_map json_of_meta m' -> option_map seen_meta m = option_map seen_meta m'.
Proof. destruct m, m'; cbn; intros E; try discriminate E; [|reflexivity]. f_equal. apply meta_inj. congruence. Qed.
Lemma some_inj {A} (x y : A) : Some x = Some y -> x = y.
Proof. congruence. Qed.
Lemma jarr_inj l l' : JArr l = JArr l' -> l = l'.
Proof. congruence. Qed.
Lemma jnum_inj n n' : JNum n = JNum n' -> n = n'.
Proof. congruence. Qed.
Lemma span_variant_inj v v' : span_variant_name v = span_variant_name v' -> v = v'.
Proof. destruct v, v'; intros E; try reflexivity; discriminate E. Qed.
Lemma span_form_inj v v' : span_form_name v = span_form_name v' -> v = v'.
Proof. destruct v, v'; intros E; try reflexivity; discriminate E. Qed.
Lemma ref_variant_inj v v' : ref_variant_name v = ref_variant_name v' -> v = v'.
Proof. destruct v, v'; intros E; try reflexivity; discriminate E. Qed.
Lemma leaf_name_inj v v' : leaf_name_name v = leaf_name_name v' -> v = v'.
Proof. destruct v, v'; intros E; try reflexivity; discriminate E. Qed.
Lemma parent_name_inj v v' : parent_name_name v = parent_name_name v' -> v = v'.
Proof. destruct v, v'; intros E; try reflexivity; discriminate E. Qed.
Lemma parent_variant_inj v v' : parent_variant_name v = parent_variant_name v' -> v = v'.
Proof. destruct v, v'; intros E; try reflexivity; discriminate E. Qed.

Definition inline_name (i : inline) : bytes :=
  match i with
  | ISpan _ _ _ _ _ _ => bs "span" | IRef _ _ _ _ _ => bs "ref" | ILit n _ _ _ => literal_name_name n | IBreak _ => bs "linebreak"
  end.
Lemma field_inline_name i : field "name" (json_of_inline i) = Some (JStr (inline_name i)).
Proof. now destruct i. Qed.
Lemma inline_inj i : forall i', json_of_inline i = json_of_inline i' -> seen_inline i = seen_inline i'.
Proof.
  induction i as [v f l m loc o IH|v t l m loc IH|n k v loc|loc] using inline_ind'; intros i' E;
    pose proof (f_equal (field "name") E) as N; rewrite !field_inline_name in N; apply some_inj, jstr_inj in N;
    destruct i' as [v' f' l' m' loc' o'|v' t' l' m' loc'|n' k' v' loc'|loc']; cbn [inline_name] in N;
    try (exfalso; try destruct n; try destruct n'; discriminate N).
  - assert (forall k, field k (json_of_inline (ISpan v f l m loc o)) = field k (json_of_inline (ISpan v' f' l' m' loc' o'))) as F by (intros; now rewrite E).
    assert (span_variant_name v = span_variant_name v') as E1 by (apply jstr_inj, some_inj; exact (F "variant"%string)).
    assert (span_form_name f = span_form_name f') as E2 by (apply jstr_inj, some_inj; exact (F "form"%string)).
    assert (map json_of_inline l = map json_of_inline l') as E3 by (apply jarr_inj, some_inj; exact (F "inlines"%string)).
    assert (option_map json_of_meta m = option_map json_of_meta m') as E4.
    { pose proof (F "metadata"%string) as K. destruct m, m'; exact K. }
    assert (jlocs loc = jlocs loc') as E5.
    { apply some_inj. pose proof (F "location"%string) as K. destruct m, m'; exact K. }
    cbn [seen_inline]. apply span_variant_inj in E1. apply span_form_inj in E2. apply (map_same _ seen_inline _ IH) in E3.
    apply opt_meta_inj in E4. apply jlocs_inj in E5. congruence.
  - assert (forall k, field k (json_of_inline (IRef v t l m loc)) = field k (json_of_inline (IRef v' t' l' m' loc'))) as F by (intros; now rewrite E).
    assert (ref_variant_name v = ref_variant_name v') as E1 by (apply jstr_inj, some_inj; exact (F "variant"%string)).
    assert (t = t') as E2 by (apply jstr_inj, some_inj; exact (F "target"%string)).
    assert (map json_of_inline l = map json_of_inline l') as E3 by (apply jarr_inj, some_inj; exact (F "inlines"%string)).
    assert (option_map json_of_meta m = option_map json_of_meta m') as E4.
    { pose proof (F "metadata"%string) as K. destruct m, m'; exact K. }
    assert (jlocs loc = jlocs loc') as E5.
    { apply some_inj. pose proof (F "location"%string) as K. destruct m, m'; exact K. }
    cbn [seen_inline]. apply ref_variant_inj in E1. apply (map_same _ seen_inline _ IH) in E3.
    apply opt_meta_inj in E4. apply jlocs_inj in E5. congruence.
  - assert (forall x, field x (json_of_inline (ILit n k v loc)) = field x (json_of_inline (ILit n' k' v' loc'))) as F by (intros; now rewrite E).
    assert (n = n') as -> by (destruct n, n'; try reflexivity; discriminate N).
    assert (k = k') as ->. { pose proof (F "type"%string) as K. destruct k, k'; try reflexivity; discriminate K. }
    assert (v = v') as -> by (apply jstr_inj, some_inj; exact (F "value"%string)).
    assert (jlocs loc = jlocs loc') as E5 by (apply some_inj; exact (F "location"%string)).
    apply jlocs_inj in E5. now subst.
  - assert (jlocs loc = jlocs loc') as E5 by (apply some_inj; exact (f_equal (field "location") E)). apply jlocs_inj in E5. now subst.
Qed.
Lemma jinlines_inj l l' : jinlines l = jinlines l' -> map seen_inline l = map seen_inline l'.
Proof. intros E. apply jarr_inj in E. revert E. apply map_same. apply Forall_forall. intros x _. apply inline_inj. Qed.
Lemma opt_inlines_inj l l' : match l with [] => None | _ => Some (jinlines l) end = match l' with [] => None | _ => Some (jinlines l') end ->
  map seen_inline l = map seen_inline l'.
Proof.
  intros E. apply jinlines_inj. destruct l, l'; try discriminate E; [reflexivity|]. now apply some_inj.
Qed.
Ltac grab F k := let K := fresh in pose proof (F k%string) as K.
Lemma block_inj b : forall b', json_of_block b = json_of_block b' -> seen_block b = seen_block b'.
Proof.
  induction b as [h m k loc IH] using block_ind'. intros [h' m' k' loc'] E.
  pose proof (f_equal (field "name") E) as N. rewrite !field_name in N. apply some_inj, jstr_inj in N. cbn [b_head] in N.
  pose proof (f_equal (field "location") E) as Lc. rewrite !field_location in Lc. apply some_inj, jlocs_inj in Lc. cbn [b_locs] in Lc.
  pose proof (f_equal (field "metadata") E) as Me. rewrite !field_meta in Me. cbn [b_head b_meta] in Me.
  assert (map json_of_block k = map json_of_block k' -> map seen_block k = map seen_block k') as K by (apply map_same; exact IH).
  assert (forall x, field x (json_of_block (Blk h m k loc)) = field x (json_of_block (Blk h' m' k' loc'))) as F by (intros; now rewrite E).
  clear IH E. subst loc'. cbn [seen_block].
  assert (forall a a', Some (JArr (map json_of_block a)) = Some (JArr (map json_of_block a')) -> map json_of_block a = map json_of_block a') as KA.
  { intros a a' X. now apply jarr_inj, some_inj. }
  destruct h as [id t lv|v|mk p| |ts p|v|t cap|n f d l|n v d t|l], h' as [id' t' lv'|v'|mk' p'| |ts' p'|v'|t' cap'|n' f' d' l'|n' v' d' t'|l'];
    cbn [head_name] in N; try (exfalso; try destruct n; try destruct n'; discriminate N);
    try (apply opt_meta_inj in Me; rewrite Me; clear Me); cbn [seen_head].
  - assert (id = id') as ->.
    { pose proof (F "id"%string) as X. destruct id, id', m, m'; try reflexivity; try discriminate X; apply jstr_inj, some_inj; exact X. }
    assert (jinlines t = jinlines t') as T.
    { apply some_inj. pose proof (F "title"%string) as X. destruct id'; exact X. }
    assert (lv = lv') as ->.
    { apply jnum_inj, some_inj. pose proof (F "level"%string) as X. destruct id', m, m'; exact X. }
    rewrite K; [|apply KA; pose proof (F "blocks"%string) as X; destruct id', m, m'; exact X].
    apply jinlines_inj in T. now rewrite T.
  - assert (v = v') as ->.
    { pose proof (F "variant"%string) as X. destruct v, v'; try reflexivity; discriminate X. }
    rewrite K; [reflexivity|]. apply KA. pose proof (F "items"%string) as X. destruct v'; exact X.
  - assert (mk = mk') as -> by (apply jstr_inj, some_inj; exact (F "marker"%string)).
    assert (jinlines p = jinlines p') as T by (apply some_inj; exact (F "principal"%string)).
    apply jinlines_inj in T. rewrite T, K; [reflexivity|].
    pose proof (F "blocks"%string) as X. destruct k, k', m, m'; try reflexivity; try discriminate X; apply KA; exact X.
  - rewrite K; [reflexivity|]. apply KA. exact (F "items"%string).
  - assert (jinlines ts = jinlines ts') as T by (apply some_inj; exact (F "terms"%string)).
    assert (map seen_inline p = map seen_inline p') as T'.
    { apply opt_inlines_inj. pose proof (F "principal"%string) as X. destruct p, p', k, k', m, m'; exact X. }
    apply jinlines_inj in T. rewrite T, T', K; [reflexivity|].
    pose proof (F "blocks"%string) as X. destruct p, p', k, k', m, m'; try reflexivity; try discriminate X; apply KA; exact X.
  - assert (v = v') as ->; [|reflexivity]. pose proof (F "variant"%string) as X. destruct v, v'; try reflexivity; discriminate X.
  - assert (t = t') as -> by (apply jstr_inj, some_inj; exact (F "target"%string)).
    assert (map seen_inline cap = map seen_inline cap') as T.
    { apply opt_inlines_inj. pose proof (F "caption"%string) as X. destruct cap, cap', m, m'; exact X. }
    now rewrite T.
  - apply leaf_name_inj in N as <-.
    assert (f = f') as ->.
    { pose proof (F "form"%string) as X. destruct f, f', d, d', m, m'; try reflexivity; discriminate X. }
    assert (d = d') as ->.
    { pose proof (F "delimiter"%string) as X. destruct f', d, d', m, m'; try reflexivity; try discriminate X; f_equal; apply jstr_inj, some_inj; exact X. }
    assert (jinlines l = jinlines l') as T.
    { apply some_inj. pose proof (F "inlines"%string) as X. destruct f', d'; exact X. }
    apply jinlines_inj in T. now rewrite T.
  - apply parent_name_inj in N as <-.
    assert (v = v') as ->.
    { pose proof (F "variant"%string) as X.
      destruct v, v', d, d', t, t', m, m'; try reflexivity; try discriminate X; f_equal; apply parent_variant_inj, jstr_inj, some_inj; exact X. }
    assert (d = d') as ->.
    { pose proof (F "delimiter"%string) as X. destruct v', d, d', t, t', m, m'; try reflexivity; try discriminate X; apply jstr_inj, some_inj; exact X. }
    assert (map seen_inline t = map seen_inline t') as T.
    { apply opt_inlines_inj. pose proof (F "title"%string) as X. destruct v', d', t, t', m, m'; exact X. }
    rewrite T, K; [reflexivity|]. apply KA. pose proof (F "blocks"%string) as X. destruct v', d'; exact X.
  - assert (jinlines l = jinlines l') as T by (apply some_inj; exact (F "inlines"%string)).
    apply jinlines_inj in T. now rewrite T.
Qed.
Lemma meta_seen m : json_of_meta (seen_meta m) = json_of_meta m.
Proof. reflexivity. Qed.
Lemma opt_meta_seen m : jmeta (option_map seen_meta m) = jmeta m.
Proof. now destruct m. Qed.
Lemma inline_seen i : json_of_inline (seen_inline i) = json_of_inline i.
Proof.
  induction i as [v f l m loc o IH|v t l m loc IH|n k v loc|loc] using inline_ind'; cbn [json_of_inline seen_inline]; try reflexivity;
    rewrite opt_meta_seen, map_map; do 2 f_equal; erewrite map_ext_in; [reflexivity|..|reflexivity|];
    intros x I; rewrite Forall_forall in IH; now apply IH.
Qed.
Lemma inlines_seen l : jinlines (map seen_inline l) = jinlines l.
Proof. unfold jinlines. rewrite map_map. f_equal. apply map_ext. intros. apply inline_seen. Qed.
Lemma opt_field_seen {A} k (l : list A) (f : A -> A) j : opt_field k (map f l) j = opt_field k l j.
Proof. now destruct l. Qed.
Lemma block_seen b : json_of_block (seen_block b) = json_of_block b.
Proof.
  induction b as [h m k loc IH] using block_ind'.
  assert (map json_of_block (map seen_block k) = map json_of_block k) as K.
  { rewrite map_map. apply map_ext_in. rewrite Forall_forall in IH. exact IH. }
  destruct h as [id t lv|v|mk p| |ts p|v|t cap|n f d l|n v d t|l]; cbn [seen_block json_of_block seen_head];
    rewrite ?opt_meta_seen, ?K, ?opt_field_seen, ?inlines_seen; reflexivity.
Qed.
Lemma graph_seen a : json_of_asg (seen a) = json_of_asg a.
Proof.
  unfold json_of_asg, seen. cbn [a_attrs a_header a_blocks a_loc]. rewrite map_map, (map_ext _ _ block_seen).
  destruct (a_header a) as [h|]; [|reflexivity]. cbn [option_map]. unfold json_of_header. cbn [hd_title hd_loc]. now rewrite inlines_seen.
Qed.
Lemma graph_inj a a' : json_of_asg a = json_of_asg a' -> seen a = seen a'.
Proof.
  intros E. assert (forall x, field x (json_of_asg a) = field x (json_of_asg a')) as F by (intros; now rewrite E).
  unfold json_of_asg in F. unfold seen.
  assert (a_attrs a = a_attrs a') as ->.
  { pose proof (F "attributes"%string) as X. destruct (a_attrs a), (a_attrs a'), (a_header a), (a_header a'); try reflexivity; try discriminate X;
      f_equal; apply map_inj, some_inj; exact X. }
  assert (option_map json_of_header (a_header a) = option_map json_of_header (a_header a')) as H.
  { pose proof (F "header"%string) as X. destruct (a_attrs a), (a_attrs a'), (a_header a), (a_header a'); exact X. }
  assert (map json_of_block (a_blocks a) = map json_of_block (a_blocks a')) as B.
  { apply jarr_inj, some_inj. pose proof (F "blocks"%string) as X. destruct (a_attrs a), (a_attrs a'), (a_header a), (a_header a'); exact X. }
  assert (a_loc a = a_loc a') as ->.
  { apply jlocs_inj, some_inj. pose proof (F "location"%string) as X. destruct (a_attrs a), (a_attrs a'), (a_header a), (a_header a'); exact X. }
  assert (map seen_block (a_blocks a) = map seen_block (a_blocks a')) as ->.
  { revert B. apply map_same. apply Forall_forall. intros x _. apply block_inj. }
  f_equal. destruct (a_header a) as [h|], (a_header a') as [h'|]; try discriminate H; [|reflexivity]. cbn [option_map] in *. apply some_inj in H.
  assert (jinlines (hd_title h) = jinlines (hd_title h')) as T by (apply some_inj; exact (f_equal (field "title") H)).
  assert (jlocs (hd_loc h) = jlocs (hd_loc h')) as L by (apply some_inj; exact (f_equal (field "location") H)).
  apply jinlines_inj in T. apply jlocs_inj in L. now rewrite T, L.
Qed.
Lemma render_json_seen a a' : render_json a = render_json a' <-> seen a = seen a'.
Proof.
  split; intros E.
  - apply graph_inj. eapply json_once; [apply render_json_text|]. rewrite E. apply render_json_text.
  - unfold render_json. rewrite <- (graph_seen a), <- (graph_seen a'). now rewrite E.
Qed.
Lemma parsed_names w fuel origin resolve src a : parse w fuel origin resolve src = Ok a -> names_once (json_of_asg a).
Proof.
  intros H. apply graph_names; [exact (attrs_nodup _ _ _ _ _ _ H)|exact (document_attrs_nodup _ _ _ _ _ _ H)].
Qed.
