(** * Specification: what the JSON output and the word count are for scripts *)
From Verif Require Import Base Location Meta Inline Block Asg Json SpecJson SpecWords SpecScript.
Local Open Scope nat_scope.

(** the words of the texts of the blocks run together, without titles of delimited blocks and terms (C31) *)
Definition script_words (d : script) : nat := words_in (List.concat (List.concat (map SpecWords.counted (script_blocks d)))).
(** the graph [g] shows the blocks and the title of the script *)
Definition shows_script (g : asg) (d : script) : Prop :=
  map unplaced (a_blocks g) = map seen_block (script_blocks d)
  /\ option_map (fun h => map unplaced_inline (hd_title h)) (a_header g) = option_map (map seen_inline) (script_title d).
