(** * C37, C46, C47: the command *)
From Verif Require Import Base World Location Token Meta Inline Block Asg Parser Json Html Docx Cli SpecCli CliProofs.
Local Open Scope char_scope.
Local Open Scope nat_scope.

Definition one_file (path text : bytes) : world :=
  mkWorld (fun _ => None) (fun p => if beqb p path then Some text else None) true (fun _ => true) (fun _ => true) (fun s => s) (fun _ => None).
Definition open_env : cli_env := mkEnv None (bs "/") (fun _ => true) (fun _ => Err DFile).
Definition adoc : cli := mkCli (bs "d/x.adoc") None BHtmlbook true false.

(** ** C37: exactly when the default output is the input: the name already has the extension
    of the backend.  Missing: such names (refuted). *)
Theorem C37_partial : forall c dir name, c_output c = None -> c_file c <> bs "-" -> file_path (c_file c) dir name ->
  (read_output c = Some (c_file c) <-> exists s, s <> [] /\ name = s ++ extension (c_backend c)).
Proof. exact overwrites. Qed.
Print Assumptions C37_partial.
Theorem C37_default : forall c dir name, c_output c = None -> c_file c <> bs "-" -> file_path (c_file c) dir name ->
  exists stem, stem_of name stem /\ stem <> [] /\ read_output c = Some (dir ++ stem ++ extension (c_backend c)).
Proof. exact default_output. Qed.
Print Assumptions C37_default.
Theorem C37_stdout : forall c, read_output c = None <-> to_stdout c.
Proof. exact stdout_asked. Qed.
Print Assumptions C37_stdout.
Theorem C37_destination : forall w fuel e c ev r, run w fuel e c = (ev, r) ->
  exists o, destination c o /\ Forall (fun p => o = Some p) (touched ev) /\ (printed ev <> [] -> o = None).
Proof. exact run_destination. Qed.
Print Assumptions C37_destination.
Example C37_example : file_path (bs "d/x.adoc") (bs "d/") (bs "x.adoc") /\ read_output adoc = Some (bs "d/x.html").
Proof.
  split; [|reflexivity]. split; [reflexivity|]. split; [right; now exists (bs "d")|]. split; [discriminate|].
  split; [cbn; intuition discriminate|]. split; discriminate.
Qed.
Theorem C37_refuted : exists w fuel e c ev, c_output c = None /\ run w fuel e c = (ev, Ok tt) /\ touched ev = [c_file c].
Proof.
  exists (one_file (bs "x.html") (bs "a")), 1, open_env, (mkCli (bs "x.html") None BHtmlbook false false). eexists.
  split; [reflexivity|]. split; vm_compute; reflexivity.
Qed.
Print Assumptions C37_refuted.

(** ** C46: a run that fails has touched no file and printed nothing, with the text backends *)
Theorem C46_failed_run : forall w fuel e c ev r, c_backend c <> BDocx -> run w fuel e c = (ev, r) -> r <> Ok tt ->
  touched ev = [] /\ printed ev = [].
Proof. exact run_failed. Qed.
Print Assumptions C46_failed_run.
Example C46_example : exists ev, run (one_file (bs "d/x.adoc") (bs "image::y.png[]")) 1 open_env adoc = (ev, Err (ETargetResolution 1 (bs "y.png"))).
Proof. eexists. vm_compute. reflexivity. Qed.
(** the docx backend truncates its output file before it finds that an image is missing *)
Theorem C46_docx_refuted : exists w fuel e c ev r, c_backend c = BDocx /\ run w fuel e c = (ev, r) /\ r <> Ok tt /\ touched ev = [bs "d/x.docx"].
Proof.
  exists (mkWorld (fun p => Some p) (fun p => if beqb p (bs "d/x.adoc") then Some (bs "image::y.png[]") else None) true (fun _ => true) (fun _ => true) (fun s => s) (fun _ => None)),
    1, open_env, (mkCli (bs "d/x.adoc") None BDocx false false). do 2 eexists.
  split; [reflexivity|]. split; [vm_compute; reflexivity|]. split; [discriminate|vm_compute; reflexivity].
Qed.
Print Assumptions C46_docx_refuted.

(** ** C47: a run that succeeds writes the rendering of its input once, to the place asked for *)
Theorem C47_successful_run : forall w fuel e c ev, run w fuel e c = (ev, Ok tt) ->
  exists src base g ct o, source_text w e c src /\ beside (c_file c) base
    /\ parse w fuel base (negb (c_unresolved c)) src = Ok g
    /\ match c_backend c with
       | BHtmlbook => exists h, render_htmlbook w g = Ok h /\ ct = CHtml h
       | BJson => ct = CJsonText (render_json g)
       | BDocx => exists d, render_docx (e_img e) g = Ok d /\ ct = CDocxFile d
       end
    /\ destination c o
    /\ match o with
       | Some p => written ev = [(p, ct)] /\ Forall (eq p) (touched ev) /\ printed ev = []
       | None => written ev = [] /\ touched ev = [] /\ printed ev = [ct]
       end
    /\ counted ev = if c_count c then [(word_count g, c_file c)] else [].
Proof. exact run_succeeded. Qed.
Print Assumptions C47_successful_run.
Example C47_example : exists ev h, run (one_file (bs "d/x.adoc") (bs "a *b*")) 1 open_env adoc = (ev, Ok tt)
  /\ written ev = [(bs "d/x.html", CHtml h)] /\ In (EvCount 2 (bs "d/x.adoc")) ev.
Proof. do 2 eexists. split; [vm_compute; reflexivity|]. split; [reflexivity|left; reflexivity]. Qed.
