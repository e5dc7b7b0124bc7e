(** * C40: on which token sequences the parser comes to an end *)
From Verif Require Import Base World Location Token Scanner Meta Inline Block Asg Parser SpecPanic PanicProofs.
Local Open Scope char_scope.
Local Open Scope nat_scope.

Definition lines (l : list bytes) : bytes := List.concat (map (fun s => s ++ [NL]) l).

(** ** C40: on a sequence of tokens of text, headings, lists, delimited blocks, breaks,
    comments, links, references, attributes and element attributes of the ordinary kind,
    and unnested spans of words, parsing returns a graph or an error: no panic, no
    exit, no endless loop.  Missing: the other sequences, for which it is false (below). *)
Theorem C40_partial : forall w fuel origin resolve ts, orderly ts ->
  match parse_with w fuel (ts, Ok tt) (new_parser origin resolve) with Ok _ | Err _ => True | _ => False end.
Proof. exact orderly_ends. Qed.
Print Assumptions C40_partial.

Definition report : bytes :=
  lines [bs "= Title *bold* here"; bs ":name: value"; []; bs "== One"; []; bs "[[here]]"; bs "[source,rust]"; bs "----"; bs "let a = _b_ * c"; bs "----"; [];
         bs "See <<one>> and http://example.com[this] or `code` there,"; bs "and _more_ of {name}."; []; bs "* a"; bs "* b"; bs ". c"; [];
         bs "NOTE: careful"; []; bs "****"; bs "x:: y"; bs "****"; []; bs "'''"; bs "// done"].
Example C40_example : snd (scan_stream report []) = Ok tt /\ orderly (fst (scan_stream report []))
  /\ exists a, parse world0 0 [] false report = Ok a /\ List.length (a_blocks a) = 2.
Proof.
  split; [vm_compute; reflexivity|]. split; [apply (orderlyb_ok 1000); vm_compute; reflexivity|]. eexists. split; vm_compute; reflexivity.
Qed.

(** documents that scan without an error and make the parser panic *)
Definition panics (src : bytes) : Prop :=
  snd (scan_stream src []) = Ok tt /\ parse world0 1 [] false src = Panic.

(** a span after a footnote *)
Theorem C40_footnote_refuted : exists src, panics src.
Proof. exists (bs "footnote:[a] *b*"). split; vm_compute; reflexivity. Qed.
Print Assumptions C40_footnote_refuted.

(** a mark without a counterpart before another span *)
Theorem C40_nested_refuted : exists src, panics src.
Proof. exists (bs "*_a_ b"). split; vm_compute; reflexivity. Qed.
Print Assumptions C40_nested_refuted.

(** a listing attached to a list item *)
Theorem C40_continuation_refuted : exists src, panics src.
Proof. exists (lines [bs "* a"; bs "+"; bs "----"; bs "code"; bs "----"]). split; vm_compute; reflexivity. Qed.
Print Assumptions C40_continuation_refuted.

(** a block attribute that begins with a character of three bytes *)
Theorem C40_wide_refuted : exists src, panics src.
Proof. exists (lines [bs "[日本]"; bs "a"]). split; vm_compute; reflexivity. Qed.
Print Assumptions C40_wide_refuted.

(** a quote with three further attributes *)
Theorem C40_quote_refuted : exists src, panics src.
Proof. exists (lines [bs "[quote,a,b,c]"; bs "d"]). split; vm_compute; reflexivity. Qed.
Print Assumptions C40_quote_refuted.

(** a verse that ends in a blank line *)
Theorem C40_verse_refuted : exists src, panics src.
Proof. exists (lines [bs "== S"; []; bs "[verse]"; bs "____"; bs "a"; []; bs "____"]). split; vm_compute; reflexivity. Qed.
Print Assumptions C40_verse_refuted.

(** a callout in a document with icons *)
Theorem C40_callout_refuted : exists src, panics src.
Proof. exists (lines [bs ":icons: true"; []; bs "----"; bs "a <1>"; bs "----"]). split; vm_compute; reflexivity. Qed.
Print Assumptions C40_callout_refuted.

(** a level offset at the end of its type, in a build with overflow checks *)
Theorem C40_offset_refuted : exists src, panics src.
Proof. exists (lines [bs ":leveloffset: 127"; []; bs "== A"]). split; vm_compute; reflexivity. Qed.
Print Assumptions C40_offset_refuted.

(** a lone quote among the attributes of an image *)
Theorem C40_image_refuted : exists src, panics src.
Proof. exists (lines [bs "image::a[" ++ [DQ] ++ bs "]"]). split; vm_compute; reflexivity. Qed.
Print Assumptions C40_image_refuted.
