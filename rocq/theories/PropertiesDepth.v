(** * C94: more depth changes nothing but giving up *)
From Verif Require Import Base World Location Token Meta Inline Block Asg Parser Json Html Docx Cli SpecScan SpecDepth DepthProofs RunProofs.
Local Open Scope char_scope.
Local Open Scope nat_scope.

(** a parse that may go deeper gives the same, unless the other gave up *)
Theorem C94_more : forall w f g origin resolve src, f <= g ->
  gives_up_or (parse w f origin resolve src) (parse w g origin resolve src).
Proof. exact up_parse. Qed.
Print Assumptions C94_more.
Theorem C94_same : forall w f g origin resolve src,
  parse w f origin resolve src <> Hang -> parse w g origin resolve src <> Hang ->
  parse w f origin resolve src = parse w g origin resolve src.
Proof. exact same_depth. Qed.
Print Assumptions C94_same.
(** without include directives the length of the source is deep enough *)
Theorem C94_enough : forall w f origin resolve src, ~ occurs (bs "include::") src -> List.length src < f ->
  parse w f origin resolve src = parse w (S (List.length src)) origin resolve src.
Proof. exact enough_depth. Qed.
Print Assumptions C94_enough.
(** without include directives and bars no depth is needed *)
Theorem C94_flat : forall w f g origin resolve src, ~ occurs (bs "include::") src -> ~ occurs (bs "|") src ->
  parse w f origin resolve src = parse w g origin resolve src.
Proof. exact flat_depth. Qed.
Print Assumptions C94_flat.
(** the command *)
Theorem C94_run : forall w f g e c, f <= g -> run w f e c = ([], Hang) \/ run w f e c = run w g e c.
Proof. exact up_run. Qed.
Print Assumptions C94_run.

(** a table in a file in a file needs a depth of three *)
Definition C94_world : world := mkWorld (fun p => Some p)
  (fun p => if beqb p (bs "a.adoc") then Some (bs "include::b.adoc[]") else Some (bs "|===
|x |y

|z |u
|===
")) true (fun _ => true) (fun _ => true) (fun s => s) (fun _ => None).
Definition C94_source : bytes := bs "m

include::a.adoc[]
".
Example C94_example : exists g, parse C94_world 2 [] true C94_source = Hang /\ parse C94_world 3 [] true C94_source = Ok g
  /\ parse C94_world 7 [] true C94_source = Ok g /\ List.length (a_blocks g) = 2.
Proof. eexists. split; [vm_compute; reflexivity|]. split; [vm_compute; reflexivity|]. split; vm_compute; reflexivity. Qed.
Definition C94_table : bytes := bs "|===
||x |y

|z |u
|===
".
Example C94_enough_example : exists g, ~ occurs (bs "include::") C94_table /\ parse world0 1 [] true C94_table = Hang
  /\ parse world0 (S (List.length C94_table)) [] true C94_table = Ok g /\ parse world0 2 [] true C94_table = Ok g.
Proof. eexists. split; [apply not_occurs_one; reflexivity|]. split; [vm_compute; reflexivity|]. split; vm_compute; reflexivity. Qed.
Example C94_flat_example : exists g, ~ occurs (bs "include::") (bs "* a *b*") /\ ~ occurs (bs "|") (bs "* a *b*")
  /\ parse world0 0 [] true (bs "* a *b*") = Ok g.
Proof. eexists. split; [apply not_occurs_one; reflexivity|]. split; [apply not_occurs_one; reflexivity|]. vm_compute. reflexivity. Qed.

(** with include directives the length of the source says nothing: a row of files *)
Definition C94_row : world := mkWorld (fun p => Some p)
  (fun p => if List.length p <? 150 then Some (bs "include::" ++ repeat "a" (List.length p) ++ bs ".adoc[]") else Some (bs "x"))
  true (fun _ => true) (fun _ => true) (fun s => s) (fun _ => None).
Theorem C94_enough_refuted : exists w f origin resolve src, List.length src < f
  /\ parse w f origin resolve src <> parse w (S (List.length src)) origin resolve src.
Proof.
  exists C94_row, 60, [], true, (bs "include::b.adoc[]"). split; [cbn; lia|]. vm_compute. discriminate.
Qed.
Print Assumptions C94_enough_refuted.
