(** * Lemmas on the command *)
From Verif Require Import Base World Location Token Meta Inline Block Asg Parser Json Html Docx Cli SpecCli ScanLemmas.
Local Open Scope char_scope.
Local Open Scope nat_scope.

Lemma stdout_asked c : read_output c = None <-> to_stdout c.
Proof.
  unfold read_output, to_stdout. destruct (c_output c) as [o|].
  - destruct (beqb o (bs "-")) eqn:E.
    + apply beqb_eq in E as ->. split; [now left|reflexivity].
    + split; [discriminate|]. intros [[= ->]|[H _]]; discriminate.
  - destruct (beqb (c_file c) (bs "-")) eqn:E.
    + apply beqb_eq in E as ->. split; [now right|reflexivity].
    + split; [discriminate|]. intros [H|[_ H]]; [discriminate|]. rewrite H in E. discriminate E.
Qed.
Lemma split_no_slash name : ~ In "/" name -> split_on is_slash name = [name].
Proof.
  induction name as [|c r IH]; intros N; [reflexivity|]. cbn. unfold is_slash at 1.
  destruct (Ascii.eqb c "/") eqn:E; [apply Ascii.eqb_eq in E as ->; destruct N; now left|].
  rewrite IH; [reflexivity|]. intros K. apply N. now right.
Qed.
Lemma split_ne s : split_on is_slash s <> [].
Proof. induction s as [|c s IH]; [discriminate|]. cbn. destruct (is_slash c); [discriminate|]. destruct (split_on is_slash s); discriminate. Qed.
Lemma split_dir d name : ~ In "/" name -> split_on is_slash (d ++ "/" :: name) = split_on is_slash d ++ [name].
Proof.
  intros N. induction d as [|c d IH]; cbn [app split_on].
  - change (is_slash "/") with true. cbv iota. now rewrite split_no_slash.
  - rewrite IH. destruct (is_slash c); [reflexivity|]. pose proof (split_ne d). destruct (split_on is_slash d); [congruence|reflexivity].
Qed.
Lemma join_split d : List.concat (map (fun s => s ++ ["/"]) (split_on is_slash d)) = d ++ ["/"].
Proof.
  induction d as [|c d IH]; [reflexivity|]. cbn [split_on]. destruct (is_slash c) eqn:E.
  - apply Ascii.eqb_eq in E as ->. cbn. now rewrite IH.
  - pose proof (split_ne d). destruct (split_on is_slash d) as [|w ws]; [congruence|]. cbn in *. now rewrite IH.
Qed.
Lemma path_name p dir name : file_path p dir name -> file_name p = Some (dir, name).
Proof.
  intros (-> & D & N & S & N1 & N2). unfold file_name, last_component.
  assert (skip_component name = false) as K.
  { unfold skip_component. apply orb_false_iff. split; apply beqb_neq; assumption. }
  apply beqb_neq in N2. destruct D as [->|(d & ->)].
  - rewrite app_nil_l, split_no_slash by assumption. cbn [rev app drop_while]. rewrite K. cbn [rev map List.concat]. now rewrite N2.
  - rewrite <- app_assoc. cbn [app]. rewrite split_dir by assumption. rewrite rev_app_distr. cbn [rev app drop_while]. rewrite K.
    rewrite rev_involutive, join_split. now rewrite N2.
Qed.
Lemma stem_ne name : name <> [] -> file_stem name <> [].
Proof.
  intros N. unfold file_stem. destruct (drop_while _ (rev name)) as [|x [|c r]]; try exact N.
  intros K. apply (f_equal (@List.length ascii)) in K. rewrite rev_length in K. discriminate K.
Qed.
Lemma drop_dot e s : ~ In "." e -> drop_while (fun c => negb (is_dot c)) (e ++ "." :: s) = "." :: s.
Proof.
  induction e as [|c e IH]; intros N; [reflexivity|]. cbn. unfold is_dot at 1. destruct (Ascii.eqb c ".") eqn:E.
  - apply Ascii.eqb_eq in E as ->. destruct N. now left.
  - cbn. apply IH. intros K. apply N. now right.
Qed.
Lemma stem_ext s e : s <> [] -> ~ In "." e -> file_stem (s ++ "." :: e) = s.
Proof.
  intros S E. unfold file_stem. rewrite rev_app_distr. cbn [rev]. rewrite <- app_assoc. cbn [app].
  rewrite drop_dot by (intros K; apply E; now apply in_rev). destruct (rev s) as [|c r] eqn:R.
  - apply (f_equal (@rev ascii)) in R. rewrite rev_involutive in R. cbn in R. congruence.
  - apply (f_equal (@rev ascii)) in R. rewrite rev_involutive in R. now rewrite R.
Qed.
Lemma ext_dot b : extension b = "." :: backend_ext b.
Proof. destruct b; reflexivity. Qed.
Lemma drop_dot_cases l : match drop_while (fun c => negb (is_dot c)) l with
  | [] => ~ In "." l
  | x :: r => x = "." /\ exists e, l = e ++ "." :: r /\ ~ In "." e
  end.
Proof.
  induction l as [|c l IH]; cbn [drop_while]; [tauto|]. unfold is_dot at 1. destruct (Ascii.eqb c ".") eqn:E; cbn [negb].
  - apply Ascii.eqb_eq in E as ->. split; [reflexivity|]. exists []. split; [reflexivity|tauto].
  - apply Ascii.eqb_neq in E. destruct (drop_while _ l) as [|x r].
    + intros [K|K]; [congruence|tauto].
    + destruct IH as (-> & e & -> & N). split; [reflexivity|]. exists (c :: e). split; [reflexivity|]. intros [K|K]; [congruence|tauto].
Qed.
Lemma stem_spec name : stem_of name (file_stem name).
Proof.
  unfold file_stem, stem_of. pose proof (drop_dot_cases (rev name)) as D. destruct (drop_while _ (rev name)) as [|x r].
  - left. split; [reflexivity|]. intros K. apply D. apply -> in_rev. destruct name; [destruct K|now right].
  - destruct D as (-> & e & E & N). apply (f_equal (@rev ascii)) in E. rewrite rev_involutive, rev_app_distr in E. cbn [rev] in E.
    rewrite <- app_assoc in E. cbn [app] in E. destruct r as [|c r].
    + left. split; [reflexivity|]. rewrite E. cbn. intros K. apply N. now apply in_rev.
    + right. exists (rev e). rewrite E. split; [reflexivity|]. split.
      * intros K. apply (f_equal (@List.length ascii)) in K. rewrite rev_length in K. discriminate K.
      * intros K. apply N. now apply in_rev.
Qed.
Lemma default_output c dir name : c_output c = None -> c_file c <> bs "-" -> file_path (c_file c) dir name ->
  exists stem, stem_of name stem /\ stem <> [] /\ read_output c = Some (dir ++ stem ++ extension (c_backend c)).
Proof.
  intros O F P. unfold read_output. rewrite O. apply beqb_neq in F. rewrite F. unfold set_extension. rewrite (path_name _ _ _ P).
  exists (file_stem name). rewrite ext_dot. split; [apply stem_spec|]. split; [|reflexivity].
  destruct P as (_ & _ & N & _). now apply stem_ne.
Qed.
Lemma destination_ok c : destination c (read_output c).
Proof.
  unfold destination. destruct (c_output c) as [p|] eqn:O.
  - unfold read_output. rewrite O. destruct (beqb p (bs "-")) eqn:E; [apply beqb_eq in E|apply beqb_neq in E]; auto.
  - destruct (beqb (c_file c) (bs "-")) eqn:E; [apply beqb_eq in E|apply beqb_neq in E].
    + left. split; [exact E|]. apply stdout_asked. right. auto.
    + right. split; [exact E|]. destruct (read_output c) as [p|] eqn:R.
      * exists p. split; [reflexivity|]. intros dir name P. destruct (default_output c dir name O E P) as (stem & S & _ & K).
        exists stem. split; [exact S|]. congruence.
      * apply stdout_asked in R as [R|[_ R]]; congruence.
Qed.
Lemma source_ok w e c src : read_input w e c = Ok src -> source_text w e c src.
Proof.
  unfold read_input, source_text. destruct (beqb (c_file c) (bs "-")) eqn:E; [apply beqb_eq in E|apply beqb_neq in E]; intros H.
  - left. split; [exact E|]. destruct (e_stdin e); congruence.
  - right. split; [exact E|]. destruct (w_read w (c_file c)); congruence.
Qed.
Lemma drop_noslash name l : ~ In "/" name -> drop_while (fun c => negb (is_slash c)) (name ++ l) = drop_while (fun c => negb (is_slash c)) l.
Proof.
  induction name as [|c r IH]; intros N; [reflexivity|]. cbn. unfold is_slash at 1. destruct (Ascii.eqb c "/") eqn:E.
  - apply Ascii.eqb_eq in E as ->. destruct N. now left.
  - cbn. apply IH. intros K. apply N. now right.
Qed.
Lemma drop_slash_cases l : match drop_while is_slash l with
  | [] => Forall (eq "/") l
  | x :: r => x <> "/" /\ exists sl, l = sl ++ x :: r /\ Forall (eq "/") sl
  end.
Proof.
  induction l as [|c l IH]; cbn [drop_while]; [apply Forall_nil|]. unfold is_slash at 1. destruct (Ascii.eqb c "/") eqn:E.
  - apply Ascii.eqb_eq in E as ->. destruct (drop_while is_slash l) as [|x r]; [now apply Forall_cons|].
    destruct IH as (N & sl & -> & F). split; [exact N|]. exists ("/" :: sl). split; [reflexivity|now apply Forall_cons].
  - apply Ascii.eqb_neq in E. split; [exact E|]. exists []. split; [reflexivity|apply Forall_nil].
Qed.
Lemma Forall_rev_slash l : Forall (eq "/") l -> Forall (eq "/") (rev l).
Proof. rewrite !Forall_forall. intros H x K. apply H. now apply in_rev. Qed.
Lemma beside_ok e f : beside f (origin_directory e f).
Proof.
  intros dir name (-> & D & N & S & _ & _). unfold origin_directory, path_parent. rewrite rev_app_distr.
  assert (drop_while is_slash (rev name ++ rev dir) = rev name ++ rev dir) as ->.
  { destruct (rev name) as [|c r] eqn:R; [apply (f_equal (@rev ascii)) in R; rewrite rev_involutive in R; cbn in R; congruence|].
    cbn. unfold is_slash at 1. destruct (Ascii.eqb c "/") eqn:E; [|reflexivity]. apply Ascii.eqb_eq in E as ->. destruct S. apply in_rev.
    rewrite R. now left. }
  rewrite drop_noslash by (intros K; apply S; now apply in_rev).
  destruct (rev name ++ rev dir) as [|z y] eqn:Z.
  { apply app_eq_nil in Z as (Z & _). apply (f_equal (@rev ascii)) in Z. rewrite rev_involutive in Z. cbn in Z. congruence. }
  clear z y Z. destruct D as [->|(d & ->)]; [now left|]. rewrite rev_app_distr. cbn [rev app drop_while].
  change (is_slash "/") with true. cbv beta iota delta [negb]. change (drop_while is_slash ("/" :: rev d)) with (drop_while is_slash (rev d)). pose proof (drop_slash_cases (rev d)) as K.
  destruct (drop_while is_slash (rev d)) as [|x r].
  - right; left. split; [|reflexivity]. split; [now destruct d|]. apply Forall_app. split.
    + apply Forall_rev_slash in K. now rewrite rev_involutive in K.
    + apply Forall_cons; [reflexivity|apply Forall_nil].
  - right; right. destruct K as (X & sl & E & F). exists (rev sl ++ ["/"]), (rev r), x. split.
    + split; [now destruct (rev sl)|]. apply Forall_app. split; [now apply Forall_rev_slash|]. apply Forall_cons; [reflexivity|apply Forall_nil].
    + split; [exact X|]. split; [reflexivity|]. apply (f_equal (@rev ascii)) in E. rewrite rev_involutive, rev_app_distr in E. cbn [rev] in E |- *.
      rewrite E, <- !app_assoc. reflexivity.
Qed.
Lemma overwrites c dir name : c_output c = None -> c_file c <> bs "-" -> file_path (c_file c) dir name ->
  (read_output c = Some (c_file c) <-> exists s, s <> [] /\ name = s ++ extension (c_backend c)).
Proof.
  intros O F P. pose proof F as F'. apply beqb_neq in F. unfold read_output. rewrite O, F. unfold set_extension. rewrite (path_name _ _ _ P).
  pose proof P as (E & _ & N & _). rewrite E. rewrite ext_dot. cbn [app]. split.
  - intros [= K]. apply app_inv_head in K. exists (file_stem name). split; [now apply stem_ne|]. symmetry. exact K.
  - intros (s & S & ->). rewrite stem_ext; [reflexivity|exact S|]. destruct (c_backend c); cbn; intuition discriminate.
Qed.

(** ** Runs *)
Lemma lift_cases {A B} (r : result A) (f : A -> list event * result B) ev x : lift r f = (ev, x) ->
  (exists a, r = Ok a /\ f a = (ev, x)) \/ ev = [] /\ (forall b, x <> Ok b) /\ forall a, r <> Ok a.
Proof.
  destruct r; cbn; intros H; [left; now eexists|..]; right; injection H as <- <-; (split; [reflexivity|split; discriminate]).
Qed.
Definition step (w : world) (e : cli_env) (c : cli) (g : asg) : list event * result unit :=
  match c_backend c with
  | BHtmlbook => lift (render_htmlbook w g) (fun h => render_string e (CHtml h) (read_output c))
  | BJson => render_string e (CJsonText (render_json g)) (read_output c)
  | BDocx =>
      if c_unresolved c then ([], Exit)
      else match read_output c with
           | None => ([], Exit)
           | Some p =>
               if negb (e_writable e p) then ([], Panic)
               else match render_docx (e_img e) g with
                    | Ok d => ([EvCreate p; EvWrite p (CDocxFile d)], Ok tt)
                    | _ => ([EvCreate p], Panic)
                    end
           end
  end.
Lemma run_cases w fuel e c ev r : run w fuel e c = (ev, r) ->
  (exists src g ev', read_input w e c = Ok src /\ parse w fuel (origin_directory e (c_file c)) (negb (c_unresolved c)) src = Ok g
     /\ step w e c g = (ev', r) /\ ev = (if c_count c then [EvCount (word_count g) (c_file c)] else []) ++ ev')
  \/ ev = [] /\ r <> Ok tt.
Proof.
  unfold run. intros H. apply lift_cases in H as [(src & E1 & H)|(-> & N & _)]; [|right; split; [reflexivity|apply N]].
  apply lift_cases in H as [(g & E2 & H)|(-> & N & _)]; [|right; split; [reflexivity|apply N]]. left. exists src, g.
  fold (step w e c g) in H. destruct (step w e c g) as [ev' r'] eqn:E3. injection H as <- <-. exists ev'. auto.
Qed.
Lemma count_none c g : touched (if c_count c then [EvCount (word_count g) (c_file c)] else []) = []
  /\ printed (if c_count c then [EvCount (word_count g) (c_file c)] else []) = []
  /\ written (if c_count c then [EvCount (word_count g) (c_file c)] else []) = [].
Proof. now destruct (c_count c). Qed.
Lemma render_string_cases e ct out ev r : render_string e ct out = (ev, r) ->
  out = None /\ ev = [EvStdout ct] /\ r = Ok tt
  \/ (exists p, out = Some p /\ (e_writable e p = true /\ ev = [EvWrite p ct] /\ r = Ok tt \/ e_writable e p = false /\ ev = [] /\ r = Panic)).
Proof.
  unfold render_string. destruct out as [p|]; [|intros [= <- <-]; auto]. destruct (e_writable e p) eqn:W; intros [= <- <-]; right; exists p; auto 10.
Qed.
Lemma run_destination0 w fuel e c ev r : run w fuel e c = (ev, r) ->
  Forall (fun p => read_output c = Some p) (touched ev) /\ (printed ev <> [] -> to_stdout c).
Proof.
  intros H. apply run_cases in H as [(src & g & ev' & _ & _ & H & ->)|(-> & _)]; [|split; [apply Forall_nil|cbn; congruence]].
  destruct (count_none c g) as (T & P & _). unfold touched, printed in *. rewrite !flat_map_app, T, P. cbn [app].
  assert (forall ct, render_string e ct (read_output c) = (ev', r) -> Forall (fun p => read_output c = Some p) (touched ev') /\ (printed ev' <> [] -> to_stdout c)) as R.
  { intros ct K. apply render_string_cases in K as [(O & -> & ->)|(p & O & [(_ & -> & ->)|(_ & -> & ->)])]; (split; cbn; [repeat constructor; assumption|]).
    - intros _. now apply stdout_asked.
    - congruence.
    - congruence. }
  unfold step in H. destruct (c_backend c).
  - apply lift_cases in H as [(h & _ & H)|(-> & _)]; [now apply (R _ H)|]. split; [apply Forall_nil|cbn; congruence].
  - now apply (R _ H).
  - destruct (c_unresolved c); [injection H as <- <-; split; [apply Forall_nil|cbn; congruence]|].
    destruct (read_output c) as [p|] eqn:O; [|injection H as <- <-; split; [apply Forall_nil|cbn; congruence]].
    destruct (negb (e_writable e p)); [injection H as <- <-; split; [apply Forall_nil|cbn; congruence]|].
    destruct (render_docx (e_img e) g); injection H as <- <-; (split; [repeat constructor|cbn; congruence]).
Qed.
Lemma run_destination w fuel e c ev r : run w fuel e c = (ev, r) ->
  exists o, destination c o /\ Forall (fun p => o = Some p) (touched ev) /\ (printed ev <> [] -> o = None).
Proof.
  intros H. apply run_destination0 in H as (H1 & H2). exists (read_output c). split; [apply destination_ok|]. split; [exact H1|].
  intros K. apply stdout_asked. auto.
Qed.
Lemma run_failed w fuel e c ev r : c_backend c <> BDocx -> run w fuel e c = (ev, r) -> r <> Ok tt -> touched ev = [] /\ printed ev = [].
Proof.
  intros B H F. apply run_cases in H as [(src & g & ev' & _ & _ & H & ->)|(-> & _)]; [|split; reflexivity].
  destruct (count_none c g) as (T & P & _). unfold touched, printed in *. rewrite !flat_map_app, T, P. cbn [app].
  assert (forall ct, render_string e ct (read_output c) = (ev', r) -> touched ev' = [] /\ printed ev' = []) as R.
  { intros ct K. apply render_string_cases in K as [(O & -> & ->)|(p & O & [(_ & -> & ->)|(_ & -> & ->)])]; [congruence|congruence|split; reflexivity]. }
  unfold step in H. destruct (c_backend c); [|now apply (R _ H)|congruence].
  apply lift_cases in H as [(h & _ & H)|(-> & _)]; [now apply (R _ H)|split; reflexivity].
Qed.
Lemma run_succeeded w fuel e c ev : run w fuel e c = (ev, Ok tt) ->
  exists src base g ct o, source_text w e c src /\ beside (c_file c) base
    /\ parse w fuel base (negb (c_unresolved c)) src = Ok g
    /\ match c_backend c with
       | BHtmlbook => exists h, render_htmlbook w g = Ok h /\ ct = CHtml h
       | BJson => ct = CJsonText (render_json g)
       | BDocx => exists d, render_docx (e_img e) g = Ok d /\ ct = CDocxFile d
       end
    /\ destination c o
    /\ match o with
       | Some p => written ev = [(p, ct)] /\ Forall (eq p) (touched ev) /\ printed ev = []
       | None => written ev = [] /\ touched ev = [] /\ printed ev = [ct]
       end
    /\ counted ev = if c_count c then [(word_count g, c_file c)] else [].
Proof.
  intros H. apply run_cases in H as [(src & g & ev' & I & Pa & H & ->)|(_ & N)]; [|congruence]. exists src, (origin_directory e (c_file c)), g.
  destruct (count_none c g) as (T & P & W).
  assert (counted (if c_count c then [EvCount (word_count g) (c_file c)] else []) = if c_count c then [(word_count g, c_file c)] else []) as Co
    by (now destruct (c_count c)).
  unfold touched, printed, written, counted in *. rewrite !flat_map_app, T, P, W, Co. cbn [app].
  assert (forall ct, render_string e ct (read_output c) = (ev', Ok tt) -> match read_output c with
       | Some p => written ev' = [(p, ct)] /\ Forall (eq p) (touched ev') /\ printed ev' = []
       | None => written ev' = [] /\ touched ev' = [] /\ printed ev' = [ct]
       end /\ counted ev' = []) as R.
  { intros ct K. apply render_string_cases in K as [(-> & -> & _)|(p & -> & [(_ & -> & _)|(_ & _ & K)])]; [|..|discriminate K]; repeat split.
    apply Forall_cons; [reflexivity|apply Forall_nil]. }
  assert (forall (A B : Prop) (C : list (nat * bytes)), A -> (B /\ counted ev' = []) -> C = (if c_count c then [(word_count g, c_file c)] else []) ->
    A /\ B /\ C ++ counted ev' = (if c_count c then [(word_count g, c_file c)] else [])) as Fin.
  { intros A B C a [b k] cc. rewrite k, app_nil_r. auto. }
  pose proof (source_ok _ _ _ _ I) as I'. pose proof (beside_ok e (c_file c)) as B. pose proof (destination_ok c) as D.
  unfold step in H. destruct (c_backend c).
  - apply lift_cases in H as [(h & E & H)|(_ & N & _)]; [|now destruct (N tt)]. exists (CHtml h), (read_output c).
    split; [exact I'|]. split; [exact B|]. split; [exact Pa|]. split; [eauto|]. apply Fin; [exact D|now apply (R _ H)|reflexivity].
  - eexists _, (read_output c). split; [exact I'|]. split; [exact B|]. split; [exact Pa|]. split; [reflexivity|].
    apply Fin; [exact D|now apply (R _ H)|reflexivity].
  - destruct (c_unresolved c); [discriminate|]. destruct (read_output c) as [p|] eqn:O; [|discriminate].
    destruct (negb (e_writable e p)); [discriminate|].
    destruct (render_docx (e_img e) g) as [d| | | |]; try discriminate. injection H as <-. exists (CDocxFile d), (Some p).
    split; [exact I'|]. split; [exact B|]. split; [exact Pa|]. split; [eauto|]. apply Fin; [exact D| |reflexivity].
    repeat split; repeat (apply Forall_cons; [reflexivity|]); apply Forall_nil.
Qed.
