(** * C15, C16, C45: level offsets *)
From Verif Require Import Base World Location Token Scanner Meta Inline Block Asg Parser SpecGraph SpecInclude SpecLevel
  LevelProofs.
Local Open Scope char_scope.
Local Open Scope nat_scope.

Definition lines (l : list bytes) : bytes := List.concat (map (fun s => s ++ [NL]) l).

(** ** C15: for every heading token and every level offset an [i8] can hold, outside
    list continuations.  [n] is the number of equals signs.  A level-0 heading under
    offset 0 is the document title, not a section.  Missing: when the sum leaves the
    range of [i8], a build with overflow checks panics. *)
Theorem C15_heading_level_partial : forall w fuel t p n,
  heading (ttype t) n -> p_header p = None -> p_open_type p = None ->
  p_in_cont p = false -> (-128 <= p_offset p <= 127)%Z -> (n = 1 -> p_offset p <> 0)%Z ->
  let level := (n - 1 + p_offset p)%Z in
  ((1 <= level <= 4)%Z -> forall p', token_into w fuel t p = Ok p' ->
     exists m r, p_bstack p' = Blk (HSection [] [] (Z.to_nat level)) m [] [first_location t] :: r)
  /\ (~ (1 <= level <= 4)%Z -> (level <= 127)%Z \/ w_checked w = false ->
      token_into w fuel t p = Err (EHeadingOffset (tline t) (p_offset p)))
  /\ ((127 < level)%Z -> w_checked w = true -> token_into w fuel t p = Panic).
Proof. exact heading_exact. Qed.
Print Assumptions C15_heading_level_partial.

Example C15_example : exists a,
  parse world0 1 [] false (lines [bs ":leveloffset: 2"; []; bs "= A"; []; bs "=== B"]) = Ok a
  /\ map (fun b => match b_head b with HSection _ _ l => Some l | _ => None end) (a_blocks a) = [Some 2]
  /\ map (fun b => match b_head b with HSection _ _ l => Some l | _ => None end) (List.concat (map b_kids (a_blocks a))) = [Some 4]
  /\ parse world0 1 [] false (lines [bs ":leveloffset: 2"; []; bs "==== B"]) = Err (EHeadingOffset 3 2).
Proof. eexists. split; [vm_compute; reflexivity|]. repeat split. Qed.

Theorem C15_panic_refuted : exists w fuel origin resolve src,
  src = lines [bs ":leveloffset: 127"; []; bs "== x"] /\ parse w fuel origin resolve src = Panic.
Proof. exists world0, 1, [], false. eexists. split; [reflexivity|]. vm_compute. reflexivity. Qed.
Print Assumptions C15_panic_refuted.

(** ** C16: [+n] sets the offset instead of adding to it, and the offset given on an
    include stays in force after it *)
Theorem C16_plus_refuted : exists w fuel origin resolve src a,
  src = lines [bs ":leveloffset: +1"; bs ":leveloffset: +1"; []; bs "== x"]
  /\ parse w fuel origin resolve src = Ok a
  /\ map (fun b => match b_head b with HSection _ _ l => Some l | _ => None end) (a_blocks a) = [Some 2].
Proof.
  exists world0, 1, [], false. do 2 eexists. split; [reflexivity|]. split; vm_compute; reflexivity.
Qed.
Print Assumptions C16_plus_refuted.

Theorem C16_include_refuted : exists w fuel origin resolve src a,
  src = lines [bs "include::a.adoc[leveloffset=1]"; []; bs "== x"]
  /\ parse w fuel origin resolve src = Ok a
  /\ map (fun b => match b_head b with HSection _ _ l => Some l | _ => None end) (a_blocks a) = [None; Some 2].
Proof.
  exists (disk [(bs "a.adoc", lines [bs "a"])]), 2, [], false. do 2 eexists. split; [reflexivity|]. split; vm_compute; reflexivity.
Qed.
Print Assumptions C16_include_refuted.

(** what remains of it: [-n] adds *)
Theorem C16_minus_partial : forall w fuel t s k p,
  offset_entry t ("-" :: s) -> decimal s k -> p_open_type p = None ->
  (k <= 128)%N -> (-128 <= p_offset p <= 127)%Z -> (-128 <= p_offset p - Z.of_N k)%Z ->
  token_into w fuel t p = Ok (set_offset (p_offset p - Z.of_N k)%Z p).
Proof. exact offset_minus_step. Qed.
Print Assumptions C16_minus_partial.

(** ** C45: exactly what an entry ":leveloffset: v" does *)
Theorem C45_offset_entry : forall w fuel t v p, offset_entry t v -> p_open_type p = None ->
  (forall k, offset_value v (inl k) -> exists z, signed8 k z /\ token_into w fuel t p = Ok (set_offset z p))
  /\ (forall k, offset_value v (inr k) ->
        ((-128 <= p_offset p + k <= 127)%Z -> token_into w fuel t p = Ok (set_offset (p_offset p + k)%Z p))
        /\ (~ (-128 <= p_offset p + k <= 127)%Z -> w_checked w = true -> token_into w fuel t p = Panic)
        /\ (~ (-128 <= p_offset p + k <= 127)%Z -> w_checked w = false ->
              exists z, signed8 (p_offset p + k) z /\ token_into w fuel t p = Ok (set_offset z p)))
  /\ ((forall x, ~ offset_value v x) -> token_into w fuel t p = Err (EInternal [])).
Proof. exact offset_exact. Qed.
Print Assumptions C45_offset_entry.

Example C45_example :
  offset_value (bs "257") (inl 257%Z) /\ signed8 257 1 /\ offset_value (bs "-3") (inr (-3)%Z)
  /\ (forall x, ~ offset_value (bs "two") x)
  /\ offset_entry (mkTok TAttribute (bs ":leveloffset: -3") None 1 1 16 []) (bs "-3").
Proof.
  split; [|split; [|split; [|split]]].
  - apply (offset_set (bs "257") 257); [|reflexivity]. apply (decimal_more (bs "25") 25 "7" 7); [|split; reflexivity].
    apply (decimal_more (bs "2") 2 "5" 5); [|split; reflexivity]. constructor. split; reflexivity.
  - split; [lia|]. now exists 1%Z.
  - apply (offset_minus (bs "3") 3); [|lia]. constructor. split; reflexivity.
  - intros x H. inversion H as [s k D _ E| |]. subst. apply decimal_val in D as [_ D]. discriminate.
  - split; [reflexivity|]. split; [reflexivity|]. split; [reflexivity|]. split; [|split].
    + split; [exists "-", (bs "3")|exists "3", (bs "-")]; (split; [reflexivity|split; vm_compute; discriminate]).
    + cbn. intuition discriminate.
    + discriminate.
Qed.
