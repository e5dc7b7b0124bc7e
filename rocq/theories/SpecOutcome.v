(** * What the command does: C87 *)
From Verif Require SpecPage SpecWords.
From Verif Require Import Base World Location Token Meta Inline Block Asg Parser Json Html Docx Cli SpecScan SpecCli SpecJson SpecRead SpecHtmlPage.
Local Open Scope nat_scope.

(** the words counted: those of the texts of all blocks, from front to back *)
Definition graph_words (g : asg) : nat := SpecWords.words_in (List.concat (List.concat (map SpecWords.counted (a_blocks g)))).
(** a text goes to standard output, or to a file if that can be written *)
Definition delivers (e : cli_env) (o : option bytes) (before : list event) (t : content) (ev : list event) (r : result unit) : Prop :=
  match o with
  | None => ev = before ++ [EvStdout t] /\ r = Ok tt
  | Some p => if e_writable e p then ev = before ++ [EvWrite p t] /\ r = Ok tt else ev = before /\ r = Panic
  end.
(** what happens to a graph *)
Definition answers (w : world) (e : cli_env) (c : cli) (g : asg) (ev : list event) (r : result unit) : Prop :=
  let before := if c_count c then [EvCount (graph_words g) (c_file c)] else [] in
  exists o, destination c o
  /\ match c_backend c with
     | BHtmlbook =>
         if forallb (shown w) (a_blocks g) then delivers e o before (CHtml (graph_html w g)) ev r else ev = before /\ r = Panic
     | BJson => exists s, (exists j, json_text s j) /\ (forall j, json_text s j -> read_document j = Some (seen g)) /\ delivers e o before (CJsonText s) ev r
     | BDocx =>
         match o with
         | Some p =>
             if c_unresolved c then ev = before /\ r = Exit
             else if negb (e_writable e p) then ev = before /\ r = Panic
             else match SpecPage.first_trouble (e_img e) (SpecPage.graph_events g) with
                  | Ok _ => exists d, SpecPage.presents (SpecPage.graph_events g) d /\ ev = before ++ [EvCreate p; EvWrite p (CDocxFile d)] /\ r = Ok tt
                  | _ => ev = before ++ [EvCreate p] /\ r = Panic
                  end
         | None => ev = before /\ r = Exit
         end
     end.
(** what happens at all *)
Definition outcome (w : world) (fuel : nat) (e : cli_env) (c : cli) (ev : list event) (r : result unit) : Prop :=
  (exists src, source_text w e c src
   /\ match parse w fuel (folder e (c_file c)) (negb (c_unresolved c)) src with
      | Ok g => answers w e c g ev r
      | Err x => ev = [] /\ r = Err x
      | Panic => ev = [] /\ r = Panic
      | Hang => ev = [] /\ r = Hang
      | Exit => ev = [] /\ r = Exit
      end)
  \/ (forall src, ~ source_text w e c src) /\ ev = [] /\ r = if beqb (c_file c) (bs "-") then Panic else Exit.
