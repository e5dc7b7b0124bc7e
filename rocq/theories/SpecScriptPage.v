(** * Specification: the docx file of scripts *)
From Verif Require SpecPage.
From Verif Require Import Base Inline Block SpecScript.

(** what happens from the start of a script to its end, for the docx file *)
Definition script_events (d : script) : list SpecPage.event :=
  match script_title d with Some t => SpecPage.title_events t | None => nil end
  ++ List.concat (map SpecPage.events (script_blocks d)).
