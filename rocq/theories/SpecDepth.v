(** * Specification: results with a limit on the depth of includes and cells *)
From Verif Require Import Base World Token Cli.

(** the second result is the first, or the first gave up *)
Definition gives_up_or {E A} (r r' : res E A) : Prop := r = Hang \/ r = r'.
