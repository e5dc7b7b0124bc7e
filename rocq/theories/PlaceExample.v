(** * Two places with the same files, for the example of C95 *)
From Verif Require Import Base World Location Token Asg Parser SpecPlace SpecResolve GraphLemmas.
Local Open Scope char_scope.
Local Open Scope nat_scope.

(** the name of a file without its directory *)
Fixpoint base (p : bytes) : bytes :=
  match p with
  | [] => []
  | c :: r => if existsb (Ascii.eqb "/") r then base r else if Ascii.eqb "/" c then r else p
  end.
Definition C95_files : list (bytes * bytes) :=
  [(bs "y.adoc", bs "m

include::z.adoc[]
"); (bs "z.adoc", bs "*n*

"); (bs "x.png", [])].
Definition known (n : bytes) : option bytes := mget n C95_files.
Definition C95_here : world := mkWorld (fun p => match known (base p) with Some _ => Some (base p) | None => None end) known
  true (fun _ => true) (fun _ => true) (fun s => s) (fun _ => None).
Definition C95_there : world := mkWorld (fun p => match known (base p) with Some _ => Some ("Z" :: base p) | None => None end)
  (fun p => known (tl p)) true (fun _ => true) (fun _ => true) (fun s => s) (fun _ => None).
Definition C95_source : bytes := bs "l

image::x.png[]

include::d/y.adoc[]
".

Lemma base_plain t : existsb (Ascii.eqb "/") t = false -> base t = t.
Proof. destruct t as [|c r]; [reflexivity|]. cbn [existsb base]. intros H. apply orb_false_iff in H as (A & B). now rewrite B, A. Qed.
Lemma base_join x t : base (x ++ "/" :: t) = base t.
Proof.
  induction x as [|c x IH].
  - cbn [app base]. destruct (existsb (Ascii.eqb "/") t) eqn:E; [reflexivity|]. rewrite (base_plain t E). reflexivity.
  - cbn [app base]. replace (existsb (Ascii.eqb "/") (x ++ "/" :: t)) with true; [exact IH|].
    rewrite existsb_app. cbn. now rewrite orb_true_r.
Qed.
Lemma base_path d t : base (path_join d t) = base t.
Proof.
  unfold path_join. destruct t as [|c t].
  - destruct (last_opt d) as [x|] eqn:L; [|reflexivity]. apply last_opt_inv in L as (y & ->). destruct (Ascii.eqb x "/") eqn:E.
    + apply Ascii.eqb_eq in E as ->. exact (base_join y []).
    + exact (base_join (y ++ [x]) []).
  - destruct (Ascii.eqb c "/"); [reflexivity|]. destruct (last_opt d) as [x|] eqn:L; [|reflexivity]. apply last_opt_inv in L as (y & ->). destruct (Ascii.eqb x "/") eqn:E.
    + apply Ascii.eqb_eq in E as ->. rewrite <- app_assoc. exact (base_join y (c :: t)).
    + exact (base_join (y ++ [x]) (c :: t)).
Qed.
Lemma same_here : same_files C95_here (bs "/a") C95_there (bs "/b/c/").
Proof.
  intros chain target. cbn [C95_here C95_there w_canon w_read]. unfold looked_up. rewrite !base_path. destruct (known (base target)); [reflexivity|exact Logic.I].
Qed.
