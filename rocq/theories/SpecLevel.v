(** * Specification of level offsets: C15, C16, C45 *)
From Verif Require Import Base Token.
Local Open Scope char_scope.
Local Open Scope nat_scope.

(** a heading of that many equals signs *)
Inductive heading : token_type -> Z -> Prop :=
| heading_1 : heading THeading1 1
| heading_2 : heading THeading2 2
| heading_3 : heading THeading3 3
| heading_4 : heading THeading4 4
| heading_5 : heading THeading5 5.

(** decimal numerals *)
Definition digit (c : ascii) (d : N) : Prop := (N_of_ascii c = 48 + d /\ d < 10)%N.
Inductive decimal : bytes -> N -> Prop :=
| decimal_one c d : digit c d -> decimal [c] d
| decimal_more s n c d : decimal s n -> digit c d -> decimal (s ++ [c]) (10 * n + d).

(** [z] is [k] cut to eight bits and read with its sign *)
Definition signed8 (k z : Z) : Prop := (-128 <= z <= 127 /\ exists q, k = z + 256 * q)%Z.

(** the value of a level offset entry, and what it does to the offset [o].  A leading
    plus makes no difference. *)
Inductive offset_value : bytes -> Z + Z -> Prop :=   (* inl: set to; inr: add *)
| offset_set s k : decimal s k -> (k < 2 ^ 64)%N -> offset_value s (inl (Z.of_N k))
| offset_plus s k : decimal s k -> (k < 2 ^ 64)%N -> offset_value ("+" :: s) (inl (Z.of_N k))
| offset_minus s k : decimal s k -> (k <= 128)%N -> offset_value ("-" :: s) (inr (- Z.of_N k)%Z).

(** a line ":leveloffset: v" as a token *)
Definition graphic_ends (v : bytes) : Prop :=
  (exists c r, v = c :: r /\ (33 <= N_of_ascii c <= 126)%N)
  /\ (exists c r, v = r ++ [c] /\ (33 <= N_of_ascii c <= 126)%N).
Definition offset_entry (t : token) (v : bytes) : Prop :=
  ttype t = TAttribute /\ lexeme t = bs ":leveloffset: " ++ v /\ literal t = None
  /\ graphic_ends v /\ ~ In ":" v /\ v <> bs "leveloffset".
