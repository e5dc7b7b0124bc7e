(** * Specification: the files a document reaches, and how long include chains get *)
From Verif Require Import Base World Location Token Scanner Meta Parser SpecScan SpecInclude SpecPath.

Section Reached.
  Variable w : world.
  Variable origin src : bytes.
  (** the path of a file some include directive met on the way names *)
  Definition included (path : bytes) : Prop :=
    exists chain t target m, reads w origin src chain t /\ ttype t = TInclude
      /\ target_and_attrs_from_token w t = Ok (target, m)
      /\ w_canon w (located origin chain target) = Some path.
  (** the text of a table cell met on the way *)
  Definition cell_text (s : bytes) : Prop :=
    exists chain t, reads w origin src chain t /\ ttype t = TTableCell
      /\ slice (token_text t) 1 (List.length (token_text t)) = (Ok s : result bytes).
  (** no chain of includes is longer than [n] *)
  Definition chains_within (n : nat) : Prop :=
    forall chain content, opens w origin src chain content -> List.length chain <= n.
  (** the scanner finishes on every text met on the way *)
  Definition all_scanned : Prop :=
    (forall chain content, opens w origin src chain content -> scan_with content chain <> Hang)
    /\ (forall s, cell_text s -> scan_with s [] <> Hang).
End Reached.
