#!/usr/bin/env python3
"""Writes rocq/theories/FixturesJson.v: the JSON fixtures of /repo/tests/data as
Examples about the model.  Only the fixtures are used, the crate is not run."""
import json, os, re, sys
D = "/repo/tests/data/"
def rd(p): return open(D + p, encoding="utf-8", newline="").read()
cases = []   # name, origin dir, source, expected json text
def case(name, path, src, exp): cases.append((name, path, src, exp))

templ = {"blocks/headings-sections", "blocks/delimited-block", "blocks/delimited-block-spaced",
         "blocks/admonition-inline", "inlines/span-single-word", "inlines/span-chars-between",
         "inlines/span-many-words", "inlines/span-across-newline"}
for d in ("blocks", "documents", "inlines"):
    for f in sorted(os.listdir(D + d)):
        if not f.endswith(".adoc"): continue
        b = d + "/" + f[:-5]
        if b in templ or not os.path.exists(D + b + ".json"): continue
        case(b, "tests/data/" + d, rd(b + ".adoc"), rd(b + ".json"))
for mk, lv in (("== ", 1), ("=== ", 2), ("==== ", 3), ("===== ", 4)):
    o = len(mk)
    case("headings_%d" % lv, "", rd("blocks/headings-sections.adoc").replace("MARKUP", mk),
         rd("blocks/headings-sections.json").replace("91", str(o + 1))
         .replace("92", str(o + len("Section Title"))).replace("93", str(lv)))
for dl, nm in (("****", "sidebar"), ("====", "example"), ("____", "quote"), ("--", "open")):
    e = rd("blocks/delimited-block.json").replace("sidebar", nm).replace("****", dl)
    if nm == "open": e = e.replace('5, "col": 4', '5, "col": 2')
    case("delimited_" + nm, "", rd("blocks/delimited-block.adoc").replace("****", dl), e)
case("delimited_spaced", "", rd("blocks/delimited-block-spaced.adoc"), rd("blocks/delimited-block-spaced.json"))
for ad in ("NOTE", "TIP", "IMPORTANT", "CAUTION", "WARNING"):
    s = len(ad) + 3
    case("admonition_" + ad, "", rd("blocks/admonition-inline.adoc").replace("NOTE", ad),
         rd("blocks/admonition-inline.json").replace("TEXT_START", str(s))
         .replace("TEXT_END", str(s + 9)).replace("DELIMITER", ad + ": ").replace("ADMONITION", ad.lower()))
for c, v in (("_", "emphasis"), ("*", "strong"), ("`", "code"), ("#", "mark")):
    for t in ("single-word", "chars-between", "many-words", "across-newline"):
        case("span_%s_%s" % (t, v), "", rd("inlines/span-%s.adoc" % t).replace("0", c),
             rd("inlines/span-%s.json" % t).replace("VARIANT", v))
    case("dangling_front_" + v, "", c + "cat", rd("inlines/span-dangling.json").replace("TEXT", c + "cat"))
    case("dangling_end_" + v, "", "cat" + c, rd("inlines/span-dangling.json").replace("TEXT", "cat" + c))

def q(s): return '(bs "' + s.replace('"', '""') + '")'
out = []
out.append("""(** * FixturesJson: the JSON fixtures of /repo/tests/data, checked against the model

    Generated by /verif/tools/gen_fixtures.py from the fixture files and the
    substitutions the tests make (/repo/tests/block_tests.rs, document_tests.rs,
    inline_tests.rs, offset_tests.rs).  These are tests of the model, not proofs
    of properties.  JSON objects are compared irrespective of key order, as
    [assert_json_eq] does: both sides have their keys sorted. *)
From Verif Require Import Base World Location Token Scanner Meta Inline Block Asg Parser Json Fixtures.
""")
n = 0
for name, path, src, exp in cases:
    can = json.dumps(json.loads(exp), sort_keys=True, ensure_ascii=False, separators=(",", ":"))
    ident = "fixture_" + re.sub(r"[^A-Za-z0-9]", "_", name)
    out.append("Example %s :\n  check_json %s %s %s = true.\nProof. vm_compute. reflexivity. Qed.\n"
               % (ident, q(path), q(src), q(can)))
    n += 1
open("/verif/rocq/theories/FixturesJson.v", "w", encoding="utf-8", newline="").write("\n".join(out))

# the file table
ft = []
for root, _, fs in os.walk(D):
    for f in sorted(fs):
        if f.endswith((".adoc", ".txt", ".xml")):
            p = os.path.relpath(os.path.join(root, f), "/repo")
            try: ft.append((p, open(os.path.join(root, f), encoding="utf-8", newline="").read()))
            except UnicodeDecodeError: pass
need = [x for x in ft if re.search(r"blocks/(included|para-internal|headings-to-offset|nested-headings-multiple|include\.adoc|image-block-figure)", x[0])]
body = ";\n   ".join("(%s,\n    %s)" % (q(p), q(s)) for p, s in need)
open("/verif/rocq/theories/Fixtures.v", "w", encoding="utf-8", newline="").write("""(** * Fixtures: the file system of the fixture checks and the comparison

    Generated by /verif/tools/gen_fixtures.py; the table holds the files of
    /repo/tests/data that other fixtures include. *)
From Verif Require Import Base World Location Token Scanner Meta Inline Block Asg Parser Json.

Definition fixture_files : list (bytes * bytes) :=
  [%s].

(** lexical normalisation of ["."] and [".."] *)
Fixpoint norm_segments (acc : list bytes) (l : list bytes) : list bytes :=
  match l with
  | [] => rev acc
  | s :: r =>
      if beqb s (bs ".") || beqb s [] then norm_segments acc r
      else if beqb s (bs "..") then norm_segments (tl acc) r
      else norm_segments (s :: acc) r
  end.
Definition norm_path (p : bytes) : bytes :=
  join (bs "/") (norm_segments [] (split_on is_slash p)).
Definition fixture_world : world :=
  mkWorld (fun p => if mhas (norm_path p) fixture_files then Some (norm_path p) else None)
          (fun p => mget p fixture_files) true (fun _ => true) (fun _ => true) (fun s => s) (fun _ => None).

(** keys sorted bytewise *)
Fixpoint blt (a b : bytes) : bool :=
  match a, b with
  | [], _ :: _ => true
  | _, [] => false
  | x :: a', y :: b' =>
      if (N_of_ascii x =? N_of_ascii y)%%N then blt a' b' else (N_of_ascii x <? N_of_ascii y)%%N
  end.
Fixpoint key_insert (kv : bytes * json) (l : list (bytes * json)) : list (bytes * json) :=
  match l with
  | [] => [kv]
  | x :: r => if blt (fst kv) (fst x) then kv :: l else x :: key_insert kv r
  end.
Fixpoint jsort (j : json) : json :=
  match j with
  | JArr l => JArr (map jsort l)
  | JObj l => JObj (fold_right key_insert [] (map (fun kv => (fst kv, jsort (snd kv))) l))
  | _ => j
  end.

(** [serde_json::to_string] *)
Fixpoint json_print (j : json) : bytes :=
  match j with
  | JStr s => json_quote s
  | JNum n => dec n
  | JArr l => bs "[" ++ join (bs ",") (map json_print l) ++ bs "]"
  | JObj l => bs "{" ++ join (bs ",") (map (fun kv => json_quote (fst kv) ++ bs ":" ++ json_print (snd kv)) l)
                  ++ bs "}"
  end.

Definition fixture_parse (origin src : bytes) : result asg :=
  parse fixture_world 10 origin false src.
Definition check_json (origin src expected : bytes) : bool :=
  match fixture_parse origin src with
  | Ok a => beqb (json_print (jsort (json_of_asg a))) expected
  | _ => false
  end.
""" % body)
# HTMLBook, without white space
hout = ["""(** * FixturesHtml: the HTMLBook fixtures of /repo/tests/data, checked against the model

    Generated by /verif/tools/gen_fixtures.py.  As in /repo/tests/common/mod.rs
    both sides are compared without white space.  Tests, not proofs. *)
From Verif Require Import Base World Location Token Scanner Meta Inline Block Asg Parser Json Fixtures Html.

Definition strip_ws (s : bytes) : bytes :=
  List.concat (filter (fun c => negb (is_ws c)) (chars s)).
Definition check_html (origin src expected : bytes) : bool :=
  match fixture_parse origin src with
  | Ok a => match render_htmlbook fixture_world a with
            | Ok h => beqb (strip_ws h) expected
            | _ => false
            end
  | _ => false
  end.
"""]
h = 0
for f in sorted(os.listdir(D + "htmlbook")):
    if not f.endswith(".adoc") or not os.path.exists(D + "htmlbook/" + f[:-5] + ".html"): continue
    b = "htmlbook/" + f[:-5]
    exp = "".join(c for c in rd(b + ".html") if not c.isspace())
    hout.append("Example html_%s :\n  check_html %s %s %s = true.\nProof. vm_compute. reflexivity. Qed.\n"
                % (re.sub(r"[^A-Za-z0-9]", "_", f[:-5]), q("tests/data/htmlbook"), q(rd(b + ".adoc")), q(exp)))
    h += 1
open("/verif/rocq/theories/FixturesHtml.v", "w", encoding="utf-8", newline="").write("\n".join(hout))
print(n, "json cases", h, "html cases")
