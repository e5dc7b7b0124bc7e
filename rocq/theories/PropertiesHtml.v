(** * C32, C33: the HTMLBook output *)
From Verif Require Import Base World Location Token Scanner Meta Inline Block Asg Parser Html SpecScan SpecHtml HtmlProofs.
Local Open Scope char_scope.
Local Open Scope nat_scope.

Definition lines (l : list bytes) : bytes := List.concat (map (fun s => s ++ [NL]) l).
Definition rendered (src : bytes) : result bytes :=
  let* a := parse world0 20 [] false src in render_htmlbook world0 a.

(** ** C32: for every graph, parsed or not, whose texts have no markup of their own *)
Theorem C32_well_formed : forall w a s, clean_graph a -> render_htmlbook w a = Ok s -> html s.
Proof. exact html_well_formed. Qed.
Print Assumptions C32_well_formed.

Theorem C32_well_nested : forall w a s, clean_graph a -> render_htmlbook w a = Ok s -> well_nested s = true.
Proof. exact html_nested. Qed.
Print Assumptions C32_well_nested.

Definition example_source : bytes :=
  lines [bs "= Title"; []; bs "== A *b* ""c"""; []; bs "* x"; bs "** https://e.org[y _z_]"; []; bs "[cols=""2""]"; bs "|==="; bs "|a|b"; bs "|c|d"; bs "|===";
         []; bs "NOTE: n footnote:[f]"; []; bs "'''"; []; bs "image::i.png[alt]"].
Example C32_example : exists a s, parse world0 20 [] false example_source = Ok a /\ clean_graph a
  /\ List.length (a_blocks a) = 5 /\ render_htmlbook world0 a = Ok s /\ well_nested s = true /\ 400 <= List.length s.
Proof.
  remember (parse world0 20 [] false example_source) as r eqn:E. vm_compute in E.
  match type of E with r = Ok ?x => exists x end. eexists. subst r. split; [reflexivity|].
  split; [unfold clean_graph; cbn; repeat split; repeat constructor; discriminate|].
  split; [reflexivity|]. split; [vm_compute; reflexivity|]. split; [vm_compute; reflexivity|]. apply Nat.leb_le. vm_compute. reflexivity.
Qed.
(** what the notion rules out *)
Example C32_not_nested : well_nested (bs "<p><em></p></em>") = false /\ well_nested (bs "<p>") = false
  /\ well_nested (bs "</p>") = false /\ well_nested (bs "<p>a < b</p>") = false.
Proof. repeat split. Qed.

(** ** C33: nothing is escaped: any text at all comes through as it is *)
Theorem C33_refuted : forall w s loc loc', exists before after,
  render_htmlbook w (mkAsg None None [] [] [Blk (HLeaf NParagraph FmParagraph None [ILit LText false s loc]) None [] loc'] [])
  = Ok (before ++ s ++ after).
Proof. exact html_unescaped. Qed.
Print Assumptions C33_refuted.
Example C33_source_refuted : exists before after,
  rendered (lines [bs "a <script>x</script>"]) = Ok (before ++ bs "<script>x</script>" ++ after).
Proof.
  exists (bs "<!DOCTYPE html><html lang=""en""><head><meta charset=""UTF-8""><meta name=""viewport"" content=""width=device-width, initial-scale=1""><title></title></head><body><p>a "), (bs "</p></body></html>").
  vm_compute. reflexivity.
Qed.

(** for texts in which nothing would need escaping, the only tags are those of the
    templates.  Missing: every other text, by the theorem above. *)
Theorem C33_partial : forall w a s, clean_graph a -> render_htmlbook w a = Ok s -> html s.
Proof. exact html_well_formed. Qed.
Print Assumptions C33_partial.
