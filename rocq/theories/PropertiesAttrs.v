(** * C89: what an attribute list stands for; C28: which lists are accepted *)
From Verif Require Import Base World Location Token Meta SpecMeta SpecScan SpecAttrs.
From Verif Require AttrProofs AcceptProofs.
Local Open Scope char_scope.
Local Open Scope nat_scope.

(** ** C89: a list before a block without attributes so far, and before one that has some *)
Theorem C89_list : forall w t l, items_ok l -> l <> [] -> ttype t = TElementAttributes -> lexeme t = bs "[" ++ list_text l ++ bs "]" ->
  attributes (mkMeta [] [] [] false None (token_locations t)) l (new_block_meta_from_token w t).
Proof. exact AttrProofs.new_list. Qed.
Print Assumptions C89_list.
Theorem C89_added : forall w m t l, items_ok l -> l <> [] -> ttype t = TElementAttributes -> lexeme t = bs "[" ++ list_text l ++ bs "]" ->
  attributes m l (add_metadata_from_token w m t).
Proof. exact AttrProofs.add_list. Qed.
Print Assumptions C89_added.
(** the list of an include directive, of a block image and of an inline image *)
Theorem C89_directive : forall w t target l, items_ok l -> l <> [] -> ~ In "[" target ->
  (match target with c :: _ => is_cont c = false | [] => True end) ->
  directive (ttype t) <> [] -> token_text t = directive (ttype t) ++ target ++ bs "[" ++ list_text l ++ bs "]" ->
  read_as target l (target_and_attrs_from_token w t).
Proof. exact AttrProofs.directive_list. Qed.
Print Assumptions C89_directive.

Definition list_token (l : list item) : token := mkTok TElementAttributes (bs "[" ++ list_text l ++ bs "]") None 1 1 1 [].
Definition quote_list : list item := [Bare (bs "quote"); Bare (bs "Zoë B. "); Bare (bs "A book"); Bare (bs "role=big red")].
Definition mixed_list : list item := [Bare (bs "source"); Bare (bs "ruby"); Quoted (bs "id") (bs "a, b"); Bare (bs "id=c")].
Ltac bare_ok := split; [repeat apply Forall_cons; try apply Forall_nil; repeat split; discriminate|reflexivity].
Example C89_example_list :
  items_ok quote_list /\ list_text quote_list = bs "quote,Zoë B. ,A book,role=big red" /\ list_refused None (order quote_list) = false
  /\ style_after None (order quote_list) = Some AQuote
  /\ givens None (order quote_list) = [(bs "attribution", bs "Zoë B."); (bs "citation", bs "A book")]
  /\ exists m, new_block_meta_from_token world0 (list_token quote_list) = Ok m /\ m_type m = Some AQuote /\ m_roles m = [bs "big"; bs "red"]
       /\ m_attrs m = [(bs "attribution", bs "Zoë B."); (bs "citation", bs "A book")].
Proof.
  split; [split; [repeat apply Forall_cons; try apply Forall_nil; bare_ok|intros p q x []]|]. repeat split; try (vm_compute; reflexivity).
  eexists. repeat split; vm_compute; reflexivity.
Qed.
(** an attribute in quotes comes before the others, whatever its place: here the list is not
    that of a source listing, and the value without quotes replaces the one in quotes *)
Example C89_example_moved :
  items_ok mixed_list /\ list_text mixed_list = bs "source,ruby,id=""a, b"",id=c" /\ style_after None (order mixed_list) = None
  /\ givens None (order mixed_list) = [(bs "id", bs "a, b"); (bs "positional_2", bs "source"); (bs "positional_3", bs "ruby"); (bs "id", bs "c")]
  /\ last_given None (order mixed_list) (bs "id") = Some (bs "c")
  /\ exists m, new_block_meta_from_token world0 (list_token mixed_list) = Ok m /\ m_type m = None /\ mget (bs "id") (m_attrs m) = Some (bs "c")
       /\ mget (bs "positional_2") (m_attrs m) = Some (bs "source") /\ mget (bs "language") (m_attrs m) = None.
Proof.
  split; [split|].
  - repeat apply Forall_cons; try apply Forall_nil; try bare_ok.
    split; (split; [|try reflexivity]); try discriminate; repeat apply Forall_cons; try apply Forall_nil; try (repeat split; discriminate); left; reflexivity.
  - intros p q x [<-|[]] [<-|[]] _. reflexivity.
  - repeat split; try (vm_compute; reflexivity). eexists. repeat split; vm_compute; reflexivity.
Qed.
(** a fourth place in a quote is refused *)
Example C89_example_refused :
  let l := [Bare (bs "verse"); Bare (bs "a"); Bare (bs "b"); Bare (bs "c")] in
  items_ok l /\ list_refused None (order l) = true /\ new_block_meta_from_token world0 (list_token l) = Panic.
Proof. split; [split; [repeat apply Forall_cons; try apply Forall_nil; bare_ok|intros p q x []]|]. split; vm_compute; reflexivity. Qed.
Example C89_example_added :
  let m := mkMeta [(bs "id", bs "x"); (bs "a", bs "y")] [] [bs "r"] false (Some ASource) [] in
  exists m', add_metadata_from_token world0 m (list_token [Bare []; Bare (bs " ruby "); Bare (bs "id=z")]) = Ok m'
    /\ m_attrs m' = [(bs "id", bs "z"); (bs "a", bs "y"); (bs "language", bs "ruby")] /\ m_type m' = Some ASource /\ m_roles m' = [bs "r"].
Proof. eexists. repeat split; vm_compute; reflexivity. Qed.
Definition range_list : list item := [Bare (bs "lines=1..3;5"); Quoted (bs "tag") (bs "a;b")].
Example C89_example_directive :
  let t := mkTok TInclude (bs "include::b/c.adoc[lines=1..3;5,tag=""a;b""]") None 1 1 1 [] in
  items_ok range_list /\ token_text t = directive (ttype t) ++ bs "b/c.adoc" ++ bs "[" ++ list_text range_list ++ bs "]"
  /\ exists m, target_and_attrs_from_token world0 t = Ok (bs "b/c.adoc", Some m)
       /\ m_attrs m = [(bs "tag", bs "a;b"); (bs "lines", bs "1..3;5")].
Proof.
  split; [split|].
  - repeat apply Forall_cons; try apply Forall_nil; try bare_ok.
    split; (split; [|try reflexivity]); try discriminate; repeat apply Forall_cons; try apply Forall_nil; try (repeat split; discriminate); left; reflexivity.
  - intros p q x [<-|[]] [<-|[]] _. reflexivity.
  - split; [vm_compute; reflexivity|]. eexists. split; vm_compute; reflexivity.
Qed.
(** false: that the place of an attribute is the one it is written at *)
Theorem C89_place_refuted : exists l, items_ok l /\ nth_error l 0 = Some (Bare (bs "source"))
  /\ forall w, exists m, new_block_meta_from_token w (list_token l) = Ok m /\ m_type m = None.
Proof. exact AttrProofs.place_moved. Qed.
Print Assumptions C89_place_refuted.

(** ** C28: exactly which texts without quotes are accepted, as a first list and as a further
    one of a block whose kind has not been said.  Missing: texts with quotes that are not around
    the value of a name. *)
Theorem C28_exact_partial : forall w s t, utf8 s -> ~ In DQ s -> ~ In NL s -> ttype t = TElementAttributes -> lexeme t = bs "[" ++ s ++ bs "]" ->
  if overdone s then new_block_meta_from_token w t = Panic else exists m, new_block_meta_from_token w t = Ok m.
Proof. exact AcceptProofs.exactly. Qed.
Print Assumptions C28_exact_partial.
Theorem C28_exact_added_partial : forall w m s t, utf8 s -> ~ In DQ s -> ~ In NL s -> ttype t = TElementAttributes -> lexeme t = bs "[" ++ s ++ bs "]" ->
  m_type m = None -> if overdone s then add_metadata_from_token w m t = Panic else exists m', add_metadata_from_token w m t = Ok m'.
Proof. exact AcceptProofs.exactly_added. Qed.
Print Assumptions C28_exact_added_partial.
Example C28_example_exact :
  overdone (bs "日本") = true /\ overdone (bs "日=本") = false /\ overdone (bs "é日") = false /\ overdone (bs "aé") = true
  /\ overdone (bs "quote,a,b,c") = true /\ overdone (bs "quote,a,b,,c=d,e|f") = false /\ overdone (bs "quotes,a,b,c") = false
  /\ overdone (bs "verse,a,b,,,x") = true.
Proof. repeat split; vm_compute; reflexivity. Qed.
