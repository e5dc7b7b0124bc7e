(** * Induction over inlines and blocks, with the hypothesis for every child *)
From Verif Require Import Base Location Token Meta Inline Block.

Section Inline.
  Variable P : inline -> Prop.
  Hypothesis Hspan : forall v f l m loc o, Forall P l -> P (ISpan v f l m loc o).
  Hypothesis Href : forall v t l m loc, Forall P l -> P (IRef v t l m loc).
  Hypothesis Hlit : forall n k v loc, P (ILit n k v loc).
  Hypothesis Hbreak : forall loc, P (IBreak loc).
  Fixpoint inline_ind' (i : inline) : P i :=
    let go := fix go (l : list inline) : Forall P l :=
      match l with
      | [] => Forall_nil P
      | x :: r => Forall_cons x (inline_ind' x) (go r)
      end in
    match i with
    | ISpan v f l m loc o => Hspan v f l m loc o (go l)
    | IRef v t l m loc => Href v t l m loc (go l)
    | ILit n k v loc => Hlit n k v loc
    | IBreak loc => Hbreak loc
    end.
End Inline.

Section Block.
  Variable P : block -> Prop.
  Hypothesis Hblk : forall h m k loc, Forall P k -> P (Blk h m k loc).
  Fixpoint block_ind' (b : block) : P b :=
    let go := fix go (l : list block) : Forall P l :=
      match l with
      | [] => Forall_nil P
      | x :: r => Forall_cons x (block_ind' x) (go r)
      end in
    match b with Blk h m k loc => Hblk h m k loc (go k) end.
End Block.
