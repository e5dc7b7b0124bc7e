(** * C81: reading the JSON output by the names of its members; C82: the JSON of scripts *)
From Coq Require Import Permutation.
From Verif Require Import Fixtures Base World Location Token Scanner Meta Inline Block Asg Parser Json Html Docx Cli SpecScan SpecLex SpecDoc
  SpecCli SpecJson SpecWords ScanFail2 ScriptCheck SpecRead ReadProofs ReadScript PropertiesScript SpecScript SpecScriptJson.
Local Open Scope nat_scope.

(** ** C81: whatever value the text of the output stands for, the reader of SpecRead.v gets back
    from it all that C59 says the output shows *)
Theorem C81_read : forall a j, json_text (render_json a) j -> read_document j = Some (seen a).
Proof. exact text_back. Qed.
Print Assumptions C81_read.
(** the order of the members does not matter to it *)
Theorem C81_order : forall l l', Permutation l l' -> NoDup (map fst l) ->
  read_document (JObj l) = read_document (JObj l') /\ read_block (JObj l) = read_block (JObj l') /\ read_inline (JObj l) = read_inline (JObj l').
Proof. exact members_order. Qed.
Print Assumptions C81_order.
Example C81_example : exists a, parse fixture_world 1 [] false (bs "= A *b*

[source,rust]
----
a
----

. Go
. On

|===
|a |b
|===") = Ok a
  /\ read_document (json_of_asg a) = Some (seen a) /\ List.length (a_blocks (seen a)) = 3 /\ a_header (seen a) <> None.
Proof.
  eexists. split; [vm_compute; reflexivity|]. split; [vm_compute; reflexivity|]. split; [vm_compute; reflexivity|]. vm_compute. discriminate.
Qed.
(** a block that calls itself by another name is not read, nor one with a member that is not known *)
Example C81_other_example : read_block (JObj [(bs "name", jstr "break"); (bs "type", jstr "block"); (bs "variant", jstr "page"); (bs "location", JArr [])])
    = Some (Blk (HBreak BPage) None [] [])
  /\ read_block (JObj [(bs "name", jstr "pagebreak"); (bs "type", jstr "block"); (bs "variant", jstr "page"); (bs "location", JArr [])]) = None
  /\ read_block (JObj [(bs "name", jstr "break"); (bs "type", jstr "block"); (bs "variant", jstr "page"); (bs "form", jstr "x"); (bs "location", JArr [])]) = None.
Proof. split; [|split]; vm_compute; reflexivity. Qed.
(** not every block has a [type]: that of a cell is called [node_type] *)
Theorem C81_type_refuted : exists a c l, parse fixture_world 1 [] false (bs "|===
|a |b
|===") = Ok a
  /\ (exists t, a_blocks a = [t] /\ In c (b_kids t)) /\ json_of_block c = JObj l /\ has ["name"; "location"]%string l = true /\ get "type" l = None.
Proof.
  eexists _, _, _. split; [vm_compute; reflexivity|]. split; [eexists; split; [reflexivity|left; reflexivity]|]. split; [vm_compute; reflexivity|].
  split; vm_compute; reflexivity.
Qed.
Print Assumptions C81_type_refuted.

(** ** C82: the JSON of a script, read by the names of its members, shows its blocks and its title *)
Theorem C82_json : forall w fuel origin resolve src d, utf8 src -> script_ok d ->
  (resolve = true -> Forall (fun t => w_canon w (path_join origin t) <> None) (pictures d)) ->
  (cells d = [] \/ 0 < fuel) -> written src d ->
  exists g, parse w fuel origin resolve src = Ok g /\ word_count g = script_words d
  /\ forall j, json_text (render_json g) j -> exists g', read_document j = Some g' /\ shows_script g' d.
Proof. exact script_json. Qed.
Print Assumptions C82_json.
Theorem C82_run : forall w fuel e c src d, c_backend c = BJson -> source_text w e c src -> utf8 src -> script_ok d ->
  (c_unresolved c = false -> Forall (fun t => w_canon w (path_join (folder e (c_file c)) t) <> None) (pictures d)) ->
  (cells d = [] \/ 0 < fuel) -> written src d ->
  exists o s, destination c o
  /\ (forall j, json_text s j -> exists g, read_document j = Some g /\ shows_script g d)
  /\ (exists j, json_text s j)
  /\ let counted := if c_count c then [EvCount (script_words d) (c_file c)] else [] in
     match o with
     | None => run w fuel e c = (counted ++ [EvStdout (CJsonText s)], Ok tt)
     | Some p => e_writable e p = true -> run w fuel e c = (counted ++ [EvWrite p (CJsonText s)], Ok tt)
     end.
Proof. exact script_json_run. Qed.
Print Assumptions C82_run.
Example C82_example : script_words C69_script = 19 /\ script_words C69_more_script = 6.
Proof. split; vm_compute; reflexivity. Qed.
Example C82_run_example : exists w e s,
  let c := mkCli (bs "d/x.adoc") (Some (bs "-")) BJson true false in
  source_text w e c C69_source /\ run w 1 e c = ([EvCount 19 (bs "d/x.adoc"); EvStdout (CJsonText s)], Ok tt)
  /\ Forall (fun t => w_canon w (path_join (folder e (c_file c)) t) <> None) (pictures C69_script).
Proof.
  exists (mkWorld (fun p => Some p) (fun p => if beqb p (bs "d/x.adoc") then Some C69_source else None)
            true (fun _ => true) (fun _ => true) (fun s => s) (fun _ => None)),
    (mkEnv None (bs "/") (fun _ => true) (fun _ => Err DFile)).
  eexists. split; [right; split; [discriminate|reflexivity]|]. split; [vm_compute; reflexivity|]. repeat constructor; discriminate.
Qed.
