(** * C93: not looking for the files of pictures changes nothing else *)
From Verif Require Import Base World Location Token Meta Inline Block Asg Parser Json Html Docx Cli Fixtures SpecScan SpecResolve ResolveProofs UnreadProofs RunProofs.
Local Open Scope char_scope.
Local Open Scope nat_scope.

(** parsing gives the same, or it ends because the file of a target is not found *)
Theorem C93_checked : forall w fuel origin src,
  missing w (parse w fuel origin true src) \/ parse w fuel origin true src = parse w fuel origin false src.
Proof. exact eased_parse. Qed.
Print Assumptions C93_checked.
Theorem C93_graph : forall w fuel origin src g,
  parse w fuel origin true src = Ok g -> parse w fuel origin false src = Ok g.
Proof. exact eased_ok. Qed.
Print Assumptions C93_graph.
(** where all files are there, the two are the same *)
Theorem C93_found : forall w fuel origin src,
  (forall p, w_canon w p <> None) -> parse w fuel origin true src = parse w fuel origin false src.
Proof. exact found_parse. Qed.
Print Assumptions C93_found.
(** the command with HTML and JSON: the option does nothing, or it lets a command go on that
    has done nothing and ends because a file is not found *)
Theorem C93_run : forall w fuel e c, c_backend c <> BDocx ->
  run w fuel e c = run w fuel e (unresolved c) \/ (fst (run w fuel e c) = [] /\ missing w (snd (run w fuel e c))).
Proof. exact eased_run. Qed.
Print Assumptions C93_run.

(** a source without include directives: without the look the result is the one of a place
    where every file is found, whatever files there are *)
Theorem C93_as_found : forall w fuel origin src, ~ occurs (bs "include::") src ->
  parse w fuel origin false src = parse (all_found w) fuel origin true src.
Proof. exact parse_as_found. Qed.
Print Assumptions C93_as_found.
Theorem C93_unread : forall w canon read fuel origin src, ~ occurs (bs "include::") src ->
  parse w fuel origin false src = parse (with_files w canon read) fuel origin false src.
Proof. exact parse_unread. Qed.
Print Assumptions C93_unread.
Theorem C93_run_as_found : forall w fuel e c src, c_backend c <> BDocx -> read_input w e c = Ok src ->
  ~ occurs (bs "include::") src -> run w fuel e (unresolved c) = run (all_found w) fuel e (resolved c).
Proof. exact run_as_found. Qed.
Print Assumptions C93_run_as_found.
(** the file of an include directive is looked for with the option too *)
Theorem C93_include_refuted : exists w fuel origin src, occurs (bs "include::") src
  /\ parse w fuel origin false src = Err (ETargetResolution 1 (bs "a.adoc"))
  /\ parse (all_found w) fuel origin true src <> parse w fuel origin false src.
Proof.
  exists (mkWorld (fun _ => None) (fun _ => Some (bs "x")) true (fun _ => true) (fun _ => true) (fun s => s) (fun _ => None)), 1, [], (bs "include::a.adoc[]").
  split; [exists [], (bs "a.adoc[]"); reflexivity|]. split; [vm_compute; reflexivity|]. vm_compute. discriminate.
Qed.
Print Assumptions C93_include_refuted.

(** a picture that is not there, and one that is *)
Definition C93_source : bytes := bs "A

image::y.png[]

b
".
Definition C93_nowhere : world := mkWorld (fun _ => None) (fun _ => Some C93_source) true (fun _ => true) (fun _ => true) (fun s => s) (fun _ => None).
Definition C93_anywhere : world := mkWorld (fun p => Some p) (fun _ => Some C93_source) true (fun _ => true) (fun _ => true) (fun s => s) (fun _ => None).
Example C93_example : exists g, parse C93_nowhere 0 [] true C93_source = Err (ETargetResolution 3 (bs "y.png"))
  /\ parse C93_nowhere 0 [] false C93_source = Ok g /\ List.length (a_blocks g) = 3
  /\ parse C93_anywhere 0 [] true C93_source = Ok g /\ (forall p, w_canon C93_anywhere p <> None)
  /\ ~ occurs (bs "include::") C93_source.
Proof.
  eexists. split; [vm_compute; reflexivity|]. split; [vm_compute; reflexivity|]. split; [reflexivity|].
  split; [vm_compute; reflexivity|]. split; [discriminate|]. apply not_occurs_one. reflexivity.
Qed.
Definition C93_env : cli_env := mkEnv None (bs "/") (fun _ => true) (fun _ => Err DFile).
Definition C93_command : cli := mkCli (bs "x.adoc") None BJson true false.
Example C93_run_example : exists ev,
  run C93_nowhere 0 C93_env C93_command = ([], Err (ETargetResolution 3 (bs "y.png")))
  /\ run C93_nowhere 0 C93_env (unresolved C93_command) = (ev, Ok tt) /\ List.length ev = 2
  /\ run C93_anywhere 0 C93_env C93_command = (ev, Ok tt).
Proof. eexists. split; [vm_compute; reflexivity|]. split; [vm_compute; reflexivity|]. split; [reflexivity|]. vm_compute. reflexivity. Qed.

(** with docx the option is refused, so the two commands differ where nothing is missing *)
Theorem C93_docx_refuted : exists w fuel e c, c_backend c = BDocx /\ run w fuel e c <> run w fuel e (unresolved c)
  /\ ~ missing w (snd (run w fuel e c)).
Proof.
  exists C93_anywhere, 0, (mkEnv None (bs "/") (fun _ => true) (fun _ => Ok tt)), (mkCli (bs "x.adoc") None BDocx false false).
  split; [reflexivity|]. split; [vm_compute; discriminate|]. intros (l & t & _ & d & K). discriminate.
Qed.
Print Assumptions C93_docx_refuted.
