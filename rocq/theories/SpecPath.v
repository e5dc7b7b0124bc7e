(** * Specification: where a file is *)
From Verif Require Import Base World.

(** the directory of [file], as seen from [dir] *)
Definition beneath (dir file : bytes) : bytes :=
  match path_parent file with Some p => path_join dir p | None => dir end.
(** a target named in the last of the files [chain], each of which is named in the file
    before it, the first in a file in the directory [origin] *)
Definition located (origin : bytes) (chain : list bytes) (target : bytes) : bytes :=
  path_join (fold_left beneath chain origin) target.
