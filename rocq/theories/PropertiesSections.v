(** * C62, C63: sections hold what follows; nothing that is said is lost *)
From Verif Require Import Base World Location Token Scanner Meta Inline Block Asg Parser SpecScan SpecInclude SpecDoc SpecArticle SpecHtmlText
  SpecSections ArticleCheck SectionsProofs.
Local Open Scope char_scope.
Local Open Scope nat_scope.

Definition lines (l : list bytes) : bytes := List.concat (map (fun s => s ++ [NL]) l).
Definition parsed (src : bytes) : result asg := parse world0 20 [] false src.
Definition text (s : string) : rich := ((bs s, []), []).
Definition marked (k : mark) (s after : string) : mark * chunk * chunk := (k, (bs s, []), (bs after, [])).

(** ** C62: for articles.  Missing: all other documents; a paragraph with a cross reference, a
    link, an image or a footnote closes the sections around it, and so do included headings (refuted). *)
Theorem C62_partial : forall w fuel origin resolve a, article_ok a ->
  exists g, parse w fuel origin resolve (article_source a) = Ok g /\ settled (a_blocks g).
Proof. exact article_settled. Qed.
Print Assumptions C62_partial.
Definition example_article : article :=
  mkArticle (Some (text "T", [(bs "n", bs "five")]))
    [Leaf (Para [text "a"]); Heading 1 (text "A"); Leaf (Items true [[text "i"]; [text "j"; text "k"]]); Heading 2 (text "B");
     Box Sidebar [Verbatim Listing [Some (text "x"); None]] [((bs "y ", [(bs "n", bs ".")]), [])];
     Leaf (Para [((bs "b ", []), [marked Strong "c" "!"])]); Leaf (CommentLine (bs " not this")); Heading 1 (text "C"); Leaf (Para [text "d"])].
Example C62_example : article_ok example_article
  /\ match parsed (article_source example_article) with
     | Ok g => map (fun b => (is_section b, map is_section (b_kids b))) (a_blocks g)
               = [(false, []); (true, [false; true]); (true, [false])]
     | _ => False
     end.
Proof. split; [apply articleb_spec; vm_compute; reflexivity|vm_compute; reflexivity]. Qed.
Ltac unsettled := intros S; inversion S as [l L F E]; clear S F; subst; inversion L as [l N E|l l' N Y E]; clear L;
  [subst; inversion N as [|b l B _ E]; subst; apply B; do 6 eexists; reflexivity
  |destruct l as [|b l]; [destruct l' as [|b' l']; [discriminate E|]; cbn in E; injection E as -> ->; inversion Y as [|x1 x2 _ Y' E]; subst; inversion Y' as [|x1 x2 (?&?&?&?&?&?&Y'') _ E]; discriminate
  |cbn in E; injection E as -> E; inversion N as [|x1 x2 B _ E']; subst; apply B; do 6 eexists; reflexivity]].
Theorem C62_reference_refuted : exists src a, src = lines [bs "== A"; []; bs "see <<x>> now"; []; bs "next"]
  /\ parsed src = Ok a /\ ~ settled (a_blocks a).
Proof. do 2 eexists. split; [reflexivity|]. split; [vm_compute; reflexivity|]. cbn [a_blocks]. unsettled. Qed.
Print Assumptions C62_reference_refuted.
Theorem C62_link_refuted : exists src a, src = lines [bs "== A"; []; bs "see https://e.org[x] now"; []; bs "next"]
  /\ parsed src = Ok a /\ ~ settled (a_blocks a).
Proof. do 2 eexists. split; [reflexivity|]. split; [vm_compute; reflexivity|]. cbn [a_blocks]. unsettled. Qed.
Print Assumptions C62_link_refuted.
Theorem C62_footnote_refuted : exists src a, src = lines [bs "== A"; []; bs "see footnote:[x] now"; []; bs "next"]
  /\ parsed src = Ok a /\ ~ settled (a_blocks a).
Proof. do 2 eexists. split; [reflexivity|]. split; [vm_compute; reflexivity|]. cbn [a_blocks]. unsettled. Qed.
Print Assumptions C62_footnote_refuted.
Theorem C62_image_refuted : exists src a, src = lines [bs "== A"; []; bs "see image:x.png[y] now"; []; bs "next"]
  /\ parsed src = Ok a /\ ~ settled (a_blocks a).
Proof. do 2 eexists. split; [reflexivity|]. split; [vm_compute; reflexivity|]. cbn [a_blocks]. unsettled. Qed.
Print Assumptions C62_image_refuted.

Theorem C62_include_refuted : exists w fuel src a, src = lines [bs "include::a.adoc[]"; []; bs "next"]
  /\ w = disk [(bs "a.adoc", lines [bs "== A"; []; bs "a"])] /\ parse w fuel [] false src = Ok a /\ ~ settled (a_blocks a).
Proof.
  eexists _, 2, _, _. split; [reflexivity|]. split; [reflexivity|]. split; [vm_compute; reflexivity|]. cbn [a_blocks]. unsettled.
Qed.
Print Assumptions C62_include_refuted.

(** ** C63: for articles: the texts of the graph, in order, are what the article says, with
    attribute references replaced.  Missing: all other documents; a title above a paragraph, a list
    or a verbatim block swallows the text after it up to the next block that takes a title (refuted). *)
Theorem C63_partial : forall w fuel origin resolve a, article_ok a ->
  exists g, parse w fuel origin resolve (article_source a) = Ok g /\ graph_text g = article_text a.
Proof. exact article_text_kept. Qed.
Print Assumptions C63_partial.
Example C63_example : article_ok example_article
  /\ article_text example_article = bs "TaAij" ++ NL :: bs "kB" ++ NL :: bs "x" ++ NL :: NL :: bs "y five.b c!Cd".
Proof. split; [apply articleb_spec; vm_compute; reflexivity|reflexivity]. Qed.
Theorem C63_title_refuted : exists src a, src = lines [bs ".T"; bs "a"; []; bs "b"; []; bs "== C"; []; bs "d"]
  /\ parsed src = Ok a /\ graph_text a = [].
Proof. do 2 eexists. split; [reflexivity|]. split; vm_compute; reflexivity. Qed.
Print Assumptions C63_title_refuted.
Theorem C63_list_refuted : exists src a, src = lines [bs ".T"; bs "* a"; bs "* b"; []; bs "c"]
  /\ parsed src = Ok a /\ List.length (flat_map b_kids (a_blocks a)) = 2 /\ graph_text a = [].
Proof. do 2 eexists. split; [reflexivity|]. split; [vm_compute; reflexivity|]. split; vm_compute; reflexivity. Qed.
Print Assumptions C63_list_refuted.
Theorem C63_listing_refuted : exists src a, src = lines [bs ".T"; bs "----"; bs "a"; bs "----"; []; bs "b"; []; bs "c"]
  /\ parsed src = Ok a /\ graph_text a = NL :: NL :: bs "a" ++ [NL].
Proof. do 2 eexists. split; [reflexivity|]. split; vm_compute; reflexivity. Qed.
Print Assumptions C63_listing_refuted.
