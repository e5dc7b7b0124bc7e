(** * C52: whole articles *)
From Verif Require Import Base World Location Token Scanner Meta Inline Block Asg Parser SpecScan SpecDoc SpecArticle
  ArticleCheck ArticleWhole.
Local Open Scope char_scope.
Local Open Scope nat_scope.

(** ** The blocks of an article, and its title *)
Theorem C52_articles : forall w fuel origin resolve a, article_ok a ->
  exists g, parse w fuel origin resolve (article_source a) = Ok g
    /\ map bare (a_blocks g) = nest (article_flat a)
    /\ option_map (fun h => map bare_inline (hd_title h)) (a_header g) = article_title a.
Proof. exact article_graph. Qed.
Print Assumptions C52_articles.

Definition text (s : string) : rich := ((bs s, []), []).
Definition marked (k : mark) (s after : string) : mark * chunk * chunk := (k, (bs s, []), (bs after, [])).
Definition example_article : article :=
  mkArticle (Some (((bs "The ", []), [marked Emphasis "Compleat" " Angler"]), [(bs "fish", bs "trout")]))
    [Leaf (Para [((bs "Catch a ", []), [(Strong, ([], [(bs "fish", [])]), (bs ",", []))]);
                 ((bs "drink H", []), [marked Subscript "2" "O."])]);
     Heading 1 (text "Tackle");
     Leaf (Items true [[text "A rod;"]; [text "a line"; text "and a hook."]]);
     Leaf (Setting (bs "fish") (bs "chub"));
     Heading 2 ((bs "The ", [(bs "fish", [])]), []);
     Leaf (CommentLine (bs " omitted"));
     Box Sidebar [Verbatim Listing [Some (text "x = 1"); None]; Items false [[text "bread"]]] [text "or paste"];
     Break BThematic;
     Admonition VTip [((bs "Use ", []), [marked Code "grep" ""]); text "on it."];
     Heading 1 (text "Rivers");
     Leaf Gap;
     Box Quote [] [((bs "Ask ", [(bs "whom", bs "?")]), [])]].
Example C52_example :
  article_ok example_article
  /\ article_lines example_article = map bs
       ["= The _Compleat_ Angler"; ":fish: trout"; "";
        "Catch a *{fish}*,"; "drink H~2~O."; "";
        "== Tackle"; "";
        ". A rod;"; ". a line"; "and a hook."; "";
        ":fish: chub"; "";
        "=== The {fish}"; "";
        "// omitted"; "";
        "****"; "----"; "x = 1"; ""; "----"; ""; "* bread"; ""; "or paste"; "****"; "";
        "'''"; "";
        "TIP: Use `grep`"; "on it."; "";
        "== Rivers"; ""; "";
        "____"; "Ask {whom}?"; "____"; ""]%string
  /\ article_title example_article
     = Some [ILit LText false (bs "The ") [];
             ISpan SEmphasis FConstrained [ILit LText false (bs "Compleat") []] None [] false;
             ILit LText false (bs " Angler") []]
  /\ let lit s := ILit LText false s [] in
     let para l := Blk (HLeaf NParagraph FmParagraph None l) None [] [] in
     nest (article_flat example_article)
     = [para [lit (bs "Catch a "); ISpan SStrong FConstrained [lit (bs "trout")] None [] false;
              lit (bs "," ++ NL :: bs "drink H"); ISpan SSubscript FConstrained [lit (bs "2")] None [] false; lit (bs "O.")];
        Blk (HSection [] [lit (bs "Tackle")] 1) None
          [Blk (HList LOrdered) None
             [Blk (HListItem (bs ".") [lit (bs "A rod;")]) None [] [];
              Blk (HListItem (bs ".") [lit (bs "a line" ++ NL :: bs "and a hook.")]) None [] []] [];
           Blk (HSection [] [lit (bs "The chub")] 2) None
             [Blk (HParent PSidebar None (bs "****") []) None
                [Blk (HLeaf NListing FmDelimited (Some (bs "----")) [lit (NL :: bs "x = 1" ++ [NL; NL])]) None [] [];
                 Blk (HList LUnordered) None [Blk (HListItem (bs "*") [lit (bs "bread")]) None [] []] [];
                 para [lit (bs "or paste")]] [];
              Blk (HBreak BThematic) None [] [];
              Blk (HParent PAdmonition (Some VTip) (bs "TIP: ") []) None
                [para [lit (bs "Use "); ISpan SCode FConstrained [lit (bs "grep")] None [] false; lit (NL :: bs "on it.")]] []] []] [];
        Blk (HSection [] [lit (bs "Rivers")] 1) None
          [Blk (HParent PQuote None (bs "____") []) None [para [lit (bs "Ask {whom}?")]] []] []].
Proof.
  split; [apply articleb_spec; vm_compute; reflexivity|]. split; [reflexivity|]. split; reflexivity.
Qed.

(** ** The conditions are needed *)
(** a subsection right after an admonition becomes a part of the admonition *)
Theorem C52_subsection_refuted : exists a g,
  ar_title a = None /\ Forall piece_ok (ar_pieces a)
  /\ parse world0 1 [] false (article_source a) = Ok g
  /\ map bare (a_blocks g) <> nest (article_flat a).
Proof.
  exists (mkArticle None [Admonition VNote [text "Mind the gap."]; Heading 1 (text "Rivers")]). eexists.
  split; [reflexivity|]. split.
  - apply (forallb_Forall _ pieceb); [apply pieceb_spec|vm_compute; reflexivity].
  - split; [vm_compute; reflexivity|]. vm_compute. discriminate.
Qed.
Print Assumptions C52_subsection_refuted.

(** a marked stretch at the end of a line and one at the start of the next: the second
    is taken to open inside the first *)
Theorem C52_marks_refuted : exists l g,
  l <> [] /\ Forall rich_line l
  /\ parse world0 1 [] false (article_source (mkArticle None [Leaf (Para l)])) = Ok g
  /\ map bare (a_blocks g) <> nest (article_flat (mkArticle None [Leaf (Para l)])).
Proof.
  exists [(([], []), [marked Strong "one" ""]); (([], []), [marked Emphasis "two" ""])]. eexists.
  split; [discriminate|]. split.
  - apply (forallb_Forall _ richb); [apply richb_spec|vm_compute; reflexivity].
  - split; [vm_compute; reflexivity|]. vm_compute. discriminate.
Qed.
Print Assumptions C52_marks_refuted.

(** an attribute reference in the title ends it *)
Theorem C52_title_refuted : exists a g,
  match ar_title a with Some (t, l) => rich_line t /\ l = [] | None => False end
  /\ ar_pieces a = []
  /\ parse world0 1 [] false (article_source a) = Ok g
  /\ option_map (fun h => map bare_inline (hd_title h)) (a_header g) <> article_title a.
Proof.
  exists (mkArticle (Some (((bs "The ", [(bs "fish", bs " book")]), []), [])) []). eexists.
  split; [split; [apply richb_spec; vm_compute; reflexivity|reflexivity]|]. split; [reflexivity|].
  split; [vm_compute; reflexivity|]. vm_compute. discriminate.
Qed.
Print Assumptions C52_title_refuted.
