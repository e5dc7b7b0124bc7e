(** * Specification: the same files in two places *)
From Verif Require Import Base World.

(** where a document that was included along [chain] looks for a file *)
Definition looked_up (origin : bytes) (chain : list bytes) (target : bytes) : bytes :=
  path_join (fold_left (fun d f => match path_parent f with Some x => path_join d x | None => d end) chain origin) target.
(** from two directories the same files are found *)
Definition same_files (w : world) (origin : bytes) (w' : world) (origin' : bytes) : Prop :=
  forall chain target,
    match w_canon w (looked_up origin chain target), w_canon w' (looked_up origin' chain target) with
    | Some p, Some p' => w_read w p = w_read w' p'
    | None, None => True
    | _, _ => False
    end.
