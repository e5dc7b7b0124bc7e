(** * C95: a tree of documents can be moved *)
From Verif Require Import Base World Location Token Meta Inline Block Asg Parser SpecPlace SpecResolve MovedProofs PlaceExample.
Local Open Scope char_scope.
Local Open Scope nat_scope.

(** from two directories from which the same files are found a source gives the same *)
Theorem C95_moved : forall w canon read origin origin', same_files w origin (with_files w canon read) origin' ->
  forall fuel resolve src, parse w fuel origin resolve src = parse (with_files w canon read) fuel origin' resolve src.
Proof. exact parse_moved'. Qed.
Print Assumptions C95_moved.

(** a document with a picture and a file in another directory that includes one beside it *)
Example C95_example : exists g, same_files C95_here (bs "/a") C95_there (bs "/b/c/")
  /\ C95_there = with_files C95_here (w_canon C95_there) (w_read C95_there)
  /\ parse C95_here 2 (bs "/a") true C95_source = Ok g /\ parse C95_there 2 (bs "/b/c/") true C95_source = Ok g
  /\ List.length (a_blocks g) = 4 /\ ~ (forall p, w_canon C95_here p = w_canon C95_there p).
Proof.
  eexists. split; [exact same_here|]. split; [reflexivity|]. split; [vm_compute; reflexivity|]. split; [vm_compute; reflexivity|]. split; [reflexivity|].
  intros H. specialize (H (bs "x.png")). vm_compute in H. discriminate H.
Qed.

(** where other files are found it matters where a document lies *)
Theorem C95_place_refuted : exists w origin origin' fuel resolve src,
  parse w fuel origin resolve src <> parse w fuel origin' resolve src.
Proof.
  exists (mkWorld (fun p => if beqb p (bs "/a/x.png") then Some p else None) (fun _ => None) true (fun _ => true) (fun _ => true) (fun s => s) (fun _ => None)),
    (bs "/a"), (bs "/b"), 0, true, (bs "image::x.png[]"). vm_compute. discriminate.
Qed.
Print Assumptions C95_place_refuted.
