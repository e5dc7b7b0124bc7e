(** * Specification: runs that end because a file is missing *)
From Verif Require Import Base World Token Cli.

(** the file a line names is not found *)
Definition missing {A} (w : world) (r : result A) : Prop :=
  exists line target, r = Err (ETargetResolution line target) /\ exists dir, w_canon w (path_join dir target) = None.
(** the same command with the option not to look for the files *)
Definition unresolved (c : cli) : cli := mkCli (c_file c) (c_output c) (c_backend c) (c_count c) true.
(** ... and without it *)
Definition resolved (c : cli) : cli := mkCli (c_file c) (c_output c) (c_backend c) (c_count c) false.
(** the same surroundings with other answers about files *)
Definition with_files (w : world) (canon read : bytes -> option bytes) : world :=
  mkWorld canon read (w_checked w) (w_alnum w) (w_word w) (w_lower w) (w_float w).
(** ... where every file is found *)
Definition all_found (w : world) : world := with_files w (fun p => Some p) (w_read w).
