(** * Fixtures: the file system of the fixture checks and the comparison

    Generated by /verif/tools/gen_fixtures.py; the table holds the files of
    /repo/tests/data that other fixtures include. *)
From Verif Require Import Base World Location Token Scanner Meta Inline Block Asg Parser Json.

Definition fixture_files : list (bytes * bytes) :=
  [((bs "tests/data/blocks/headings-to-offset.adoc"),
    (bs "== Starts as one, should be two

=== Starts as two, should be three

==== And so on
"));
   ((bs "tests/data/blocks/image-block-figure.adoc"),
    (bs "[[image_id]]
.Figure Title
image::path/to/image.png[]
"));
   ((bs "tests/data/blocks/include.adoc"),
    (bs "Here is a paragraph, followed by an include.

// includes are relative to the file that calls them
include::nested-headings-multiple.adoc[]

And then some final content back in the original file.
"));
   ((bs "tests/data/blocks/included.txt"),
    (bs "Line one
Line two
Line three
// tag::foo[]
Line five
Line six
Line seven
// end::foo[]
Line nine
Line ten
// tag::bar[]
Line eleven
// end::bar[]
"));
   ((bs "tests/data/blocks/included.xml"),
    (bs "<doc>
    <this>
        <!-- tag::snip[] -->
        <the-element-we-want />
        <!-- end::snip[] -->
    </this>
</doc>
"));
   ((bs "tests/data/blocks/nested-headings-multiple.adoc"),
    (bs "== Section Title

Contents

=== Nested Section Title

Contents of nested

=== Nested Section Title

Contents of nested at same level
"));
   ((bs "tests/data/blocks/para-internal-line-break.adoc"),
    (bs "This is just a test to see if things get combined. For example, this should all
be one inline.
"))].

(** lexical normalisation of ["."] and [".."] *)
Fixpoint norm_segments (acc : list bytes) (l : list bytes) : list bytes :=
  match l with
  | [] => rev acc
  | s :: r =>
      if beqb s (bs ".") || beqb s [] then norm_segments acc r
      else if beqb s (bs "..") then norm_segments (tl acc) r
      else norm_segments (s :: acc) r
  end.
Definition norm_path (p : bytes) : bytes :=
  join (bs "/") (norm_segments [] (split_on is_slash p)).
Definition fixture_world : world :=
  mkWorld (fun p => if mhas (norm_path p) fixture_files then Some (norm_path p) else None)
          (fun p => mget p fixture_files) true (fun _ => true) (fun _ => true) (fun s => s) (fun _ => None).

(** keys sorted bytewise *)
Fixpoint blt (a b : bytes) : bool :=
  match a, b with
  | [], _ :: _ => true
  | _, [] => false
  | x :: a', y :: b' =>
      if (N_of_ascii x =? N_of_ascii y)%N then blt a' b' else (N_of_ascii x <? N_of_ascii y)%N
  end.
Fixpoint key_insert (kv : bytes * json) (l : list (bytes * json)) : list (bytes * json) :=
  match l with
  | [] => [kv]
  | x :: r => if blt (fst kv) (fst x) then kv :: l else x :: key_insert kv r
  end.
Fixpoint jsort (j : json) : json :=
  match j with
  | JArr l => JArr (map jsort l)
  | JObj l => JObj (fold_right key_insert [] (map (fun kv => (fst kv, jsort (snd kv))) l))
  | _ => j
  end.

(** [serde_json::to_string] *)
Fixpoint json_print (j : json) : bytes :=
  match j with
  | JStr s => json_quote s
  | JNum n => dec n
  | JArr l => bs "[" ++ join (bs ",") (map json_print l) ++ bs "]"
  | JObj l => bs "{" ++ join (bs ",") (map (fun kv => json_quote (fst kv) ++ bs ":" ++ json_print (snd kv)) l)
                  ++ bs "}"
  end.

Definition fixture_parse (origin src : bytes) : result asg :=
  parse fixture_world 10 origin false src.
Definition check_json (origin src expected : bytes) : bool :=
  match fixture_parse origin src with
  | Ok a => beqb (json_print (jsort (json_of_asg a))) expected
  | _ => false
  end.
