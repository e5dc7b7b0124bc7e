(** * Asg: /repo/src/graph/asg.rs and the [Header] of /repo/src/graph/nodes.rs *)
From Verif Require Import Base World Location Token Meta Inline Block.
Local Open Scope char_scope.
Local Open Scope nat_scope.

(** nodes.rs 16-21 [struct Header]; [authors] is never set *)
Record header := mkHeader { hd_title : list inline; hd_loc : list location }.

(** nodes.rs 42-46 [Header::consolidate] *)
Definition header_consolidate (h : header) : header :=
  mkHeader (hd_title h) (rec_opt (hd_loc h) (last_inline_locs (hd_title h))).

(** nodes.rs 53-64 [Header::document_id] *)
Definition document_id_of (w : world) (h : header) : bytes :=
  to_lowercase w
    (unchars (map (fun ch => if char_alnum w ch then ch else bs "_")
                  (chars (inlines_text (hd_title h))))).

(** asg.rs 18-39 [struct Asg] *)
Record asg := mkAsg {
  a_attrs : option (list (bytes * bytes));
  a_header : option header;
  a_docid : bytes;
  a_ids : list (bytes * list inline);
  a_blocks : list block;
  a_loc : list location }.

(** asg.rs 55-66 [Asg::new] *)
Definition new_asg : asg := mkAsg None None [] [] [] [mkLoc 1 1 []].

(** asg.rs 76-82 [add_header] *)
Definition asg_add_header (w : world) (a : asg) (h : header) (attrs : list (bytes * bytes)) : asg :=
  mkAsg (Some attrs) (Some h) (document_id_of w h) (a_ids a) (a_blocks a) (a_loc a).

(** asg.rs 85-102 [push_block] *)
Definition asg_push_block (a : asg) (b0 : block) : result asg :=
  let b := consolidate_locations b0 in
  let ids := mextend (a_ids a) (id_hashes b) in
  let* bl :=
    if is_section b then
      match last_opt (a_blocks a) with
      | Some x =>
          if takes_block x b then upd_last (fun y => push_block y b) (a_blocks a)
          else Ok (a_blocks a ++ [b])
      | None => Ok (a_blocks a ++ [b])
      end
    else Ok (a_blocks a ++ [b]) in
  Ok (mkAsg (a_attrs a) (a_header a) (a_docid a) ids bl (a_loc a)).

(** asg.rs 71-74, 105-128 [consolidate] *)
Definition asg_consolidate_locations (a : asg) : list location :=
  match last_opt (a_blocks a) with
  | Some b => reconcile (a_loc a) (b_locs b)
  | None => match a_header a with
            | Some h => reconcile (a_loc a) (hd_loc h)
            | None => a_loc a
            end
  end.
Definition asg_consolidate (a : asg) : asg :=
  mkAsg (a_attrs a) (a_header a) (a_docid a) (a_ids a)
        (map (map_inlines (xref_standardize (a_ids a))) (a_blocks a))
        (asg_consolidate_locations a).

(** asg.rs 132-145 [standardize_footnotes] *)
Fixpoint standardize_blocks (l : list block) (count : nat) (doc_id : bytes)
  : result (list block * list block) :=
  match l with
  | [] => Ok ([], [])
  | x :: r =>
      let* (x', d) := extract_footnotes x count doc_id in
      let* (r', ds) := standardize_blocks r (count + List.length d) doc_id in
      Ok (x' :: r', d ++ ds)
  end.
Definition standardize_footnotes (a : asg) : result asg :=
  let* (bl, defs) := standardize_blocks (a_blocks a) 0 (a_docid a) in
  asg_push_block (mkAsg (a_attrs a) (a_header a) (a_docid a) (a_ids a) bl (a_loc a))
                 (Blk (HParent PFootnotes None [] []) None defs []).

(** asg.rs 149-159 [all_text], [word_count] *)
Definition all_text (a : asg) : bytes := List.concat (map block_text (a_blocks a)).
Definition word_count (a : asg) : nat := List.length (split_whitespace (all_text a)).
