(** * Parser: /repo/src/parser.rs

    The parser state is a record; [block_stack] and [inline_stack] are kept with
    the most recent element first (the Rust vectors have it last), so [last()]
    is the head.  [open_delimited_block_lines] and [file_stack]: the former most
    recent first, the latter in vector order.  The graph under construction
    ([asg: &mut Asg]) is a field of the state.  Logging is not modelled. *)
From Verif Require Import Base World Location Token Scanner Meta Inline Block Asg.
Local Open Scope char_scope.
Local Open Scope nat_scope.

(** parser.rs 33-81 [struct Parser] *)
Record pstate := mkP {
  p_origin : bytes;
  p_last : token_type;
  p_header : option header;
  p_attrs : list (bytes * bytes);
  p_bstack : list block;
  p_istack : list inline;
  p_files : list bytes;
  p_title : option (list inline);
  p_meta : option metadata;
  p_open_lines : list nat;
  p_open_type : option token_type;
  p_offset : Z;
  p_in_line : bool;
  p_in_span : bool;
  p_in_cont : bool;
  p_force_new : bool;
  p_preserve_nl : bool;
  p_close_parent : bool;
  p_dangling : option token;
  p_resolve : bool;
  p_asg : asg }.
Definition set_last (v : token_type) (p : pstate) : pstate :=
  mkP (p_origin p) v (p_header p) (p_attrs p) (p_bstack p) (p_istack p) (p_files p) (p_title p) (p_meta p) (p_open_lines p) (p_open_type p) (p_offset p) (p_in_line p) (p_in_span p) (p_in_cont p) (p_force_new p) (p_preserve_nl p) (p_close_parent p) (p_dangling p) (p_resolve p) (p_asg p).
Definition set_header (v : option header) (p : pstate) : pstate :=
  mkP (p_origin p) (p_last p) v (p_attrs p) (p_bstack p) (p_istack p) (p_files p) (p_title p) (p_meta p) (p_open_lines p) (p_open_type p) (p_offset p) (p_in_line p) (p_in_span p) (p_in_cont p) (p_force_new p) (p_preserve_nl p) (p_close_parent p) (p_dangling p) (p_resolve p) (p_asg p).
Definition set_attrs (v : list (bytes * bytes)) (p : pstate) : pstate :=
  mkP (p_origin p) (p_last p) (p_header p) v (p_bstack p) (p_istack p) (p_files p) (p_title p) (p_meta p) (p_open_lines p) (p_open_type p) (p_offset p) (p_in_line p) (p_in_span p) (p_in_cont p) (p_force_new p) (p_preserve_nl p) (p_close_parent p) (p_dangling p) (p_resolve p) (p_asg p).
Definition set_bstack (v : list block) (p : pstate) : pstate :=
  mkP (p_origin p) (p_last p) (p_header p) (p_attrs p) v (p_istack p) (p_files p) (p_title p) (p_meta p) (p_open_lines p) (p_open_type p) (p_offset p) (p_in_line p) (p_in_span p) (p_in_cont p) (p_force_new p) (p_preserve_nl p) (p_close_parent p) (p_dangling p) (p_resolve p) (p_asg p).
Definition set_istack (v : list inline) (p : pstate) : pstate :=
  mkP (p_origin p) (p_last p) (p_header p) (p_attrs p) (p_bstack p) v (p_files p) (p_title p) (p_meta p) (p_open_lines p) (p_open_type p) (p_offset p) (p_in_line p) (p_in_span p) (p_in_cont p) (p_force_new p) (p_preserve_nl p) (p_close_parent p) (p_dangling p) (p_resolve p) (p_asg p).
Definition set_files (v : list bytes) (p : pstate) : pstate :=
  mkP (p_origin p) (p_last p) (p_header p) (p_attrs p) (p_bstack p) (p_istack p) v (p_title p) (p_meta p) (p_open_lines p) (p_open_type p) (p_offset p) (p_in_line p) (p_in_span p) (p_in_cont p) (p_force_new p) (p_preserve_nl p) (p_close_parent p) (p_dangling p) (p_resolve p) (p_asg p).
Definition set_title (v : option (list inline)) (p : pstate) : pstate :=
  mkP (p_origin p) (p_last p) (p_header p) (p_attrs p) (p_bstack p) (p_istack p) (p_files p) v (p_meta p) (p_open_lines p) (p_open_type p) (p_offset p) (p_in_line p) (p_in_span p) (p_in_cont p) (p_force_new p) (p_preserve_nl p) (p_close_parent p) (p_dangling p) (p_resolve p) (p_asg p).
Definition set_meta (v : option metadata) (p : pstate) : pstate :=
  mkP (p_origin p) (p_last p) (p_header p) (p_attrs p) (p_bstack p) (p_istack p) (p_files p) (p_title p) v (p_open_lines p) (p_open_type p) (p_offset p) (p_in_line p) (p_in_span p) (p_in_cont p) (p_force_new p) (p_preserve_nl p) (p_close_parent p) (p_dangling p) (p_resolve p) (p_asg p).
Definition set_open_lines (v : list nat) (p : pstate) : pstate :=
  mkP (p_origin p) (p_last p) (p_header p) (p_attrs p) (p_bstack p) (p_istack p) (p_files p) (p_title p) (p_meta p) v (p_open_type p) (p_offset p) (p_in_line p) (p_in_span p) (p_in_cont p) (p_force_new p) (p_preserve_nl p) (p_close_parent p) (p_dangling p) (p_resolve p) (p_asg p).
Definition set_open_type (v : option token_type) (p : pstate) : pstate :=
  mkP (p_origin p) (p_last p) (p_header p) (p_attrs p) (p_bstack p) (p_istack p) (p_files p) (p_title p) (p_meta p) (p_open_lines p) v (p_offset p) (p_in_line p) (p_in_span p) (p_in_cont p) (p_force_new p) (p_preserve_nl p) (p_close_parent p) (p_dangling p) (p_resolve p) (p_asg p).
Definition set_offset (v : Z) (p : pstate) : pstate :=
  mkP (p_origin p) (p_last p) (p_header p) (p_attrs p) (p_bstack p) (p_istack p) (p_files p) (p_title p) (p_meta p) (p_open_lines p) (p_open_type p) v (p_in_line p) (p_in_span p) (p_in_cont p) (p_force_new p) (p_preserve_nl p) (p_close_parent p) (p_dangling p) (p_resolve p) (p_asg p).
Definition set_in_line (v : bool) (p : pstate) : pstate :=
  mkP (p_origin p) (p_last p) (p_header p) (p_attrs p) (p_bstack p) (p_istack p) (p_files p) (p_title p) (p_meta p) (p_open_lines p) (p_open_type p) (p_offset p) v (p_in_span p) (p_in_cont p) (p_force_new p) (p_preserve_nl p) (p_close_parent p) (p_dangling p) (p_resolve p) (p_asg p).
Definition set_in_span (v : bool) (p : pstate) : pstate :=
  mkP (p_origin p) (p_last p) (p_header p) (p_attrs p) (p_bstack p) (p_istack p) (p_files p) (p_title p) (p_meta p) (p_open_lines p) (p_open_type p) (p_offset p) (p_in_line p) v (p_in_cont p) (p_force_new p) (p_preserve_nl p) (p_close_parent p) (p_dangling p) (p_resolve p) (p_asg p).
Definition set_in_cont (v : bool) (p : pstate) : pstate :=
  mkP (p_origin p) (p_last p) (p_header p) (p_attrs p) (p_bstack p) (p_istack p) (p_files p) (p_title p) (p_meta p) (p_open_lines p) (p_open_type p) (p_offset p) (p_in_line p) (p_in_span p) v (p_force_new p) (p_preserve_nl p) (p_close_parent p) (p_dangling p) (p_resolve p) (p_asg p).
Definition set_force_new (v : bool) (p : pstate) : pstate :=
  mkP (p_origin p) (p_last p) (p_header p) (p_attrs p) (p_bstack p) (p_istack p) (p_files p) (p_title p) (p_meta p) (p_open_lines p) (p_open_type p) (p_offset p) (p_in_line p) (p_in_span p) (p_in_cont p) v (p_preserve_nl p) (p_close_parent p) (p_dangling p) (p_resolve p) (p_asg p).
Definition set_preserve_nl (v : bool) (p : pstate) : pstate :=
  mkP (p_origin p) (p_last p) (p_header p) (p_attrs p) (p_bstack p) (p_istack p) (p_files p) (p_title p) (p_meta p) (p_open_lines p) (p_open_type p) (p_offset p) (p_in_line p) (p_in_span p) (p_in_cont p) (p_force_new p) v (p_close_parent p) (p_dangling p) (p_resolve p) (p_asg p).
Definition set_close_parent (v : bool) (p : pstate) : pstate :=
  mkP (p_origin p) (p_last p) (p_header p) (p_attrs p) (p_bstack p) (p_istack p) (p_files p) (p_title p) (p_meta p) (p_open_lines p) (p_open_type p) (p_offset p) (p_in_line p) (p_in_span p) (p_in_cont p) (p_force_new p) (p_preserve_nl p) v (p_dangling p) (p_resolve p) (p_asg p).
Definition set_dangling (v : option token) (p : pstate) : pstate :=
  mkP (p_origin p) (p_last p) (p_header p) (p_attrs p) (p_bstack p) (p_istack p) (p_files p) (p_title p) (p_meta p) (p_open_lines p) (p_open_type p) (p_offset p) (p_in_line p) (p_in_span p) (p_in_cont p) (p_force_new p) (p_preserve_nl p) (p_close_parent p) v (p_resolve p) (p_asg p).
Definition set_asg (v : asg) (p : pstate) : pstate :=
  mkP (p_origin p) (p_last p) (p_header p) (p_attrs p) (p_bstack p) (p_istack p) (p_files p) (p_title p) (p_meta p) (p_open_lines p) (p_open_type p) (p_offset p) (p_in_line p) (p_in_span p) (p_in_cont p) (p_force_new p) (p_preserve_nl p) (p_close_parent p) (p_dangling p) (p_resolve p) v.

(** parser.rs 100-136 [Parser::new] and [new_no_target_resolution]; the origin
    directory ([origin.parent()]) is an argument *)
Definition new_parser (origin : bytes) (resolve : bool) : pstate :=
  mkP origin TEof None [] [] [] [] None None [] None 0%Z
      false false false false false false None resolve new_asg.

(** ** Token streams
    The parser pulls tokens one at a time; when the scanner fails, the tokens
    before the failure have already been parsed.  A stream is the list of tokens
    produced and how the iteration ended ([Ok tt] is [None] from [next]). *)
Definition stream : Type := (list token * result unit)%type.
Fixpoint stream_from (fuel : nat) (sc : scanner) : stream :=
  match fuel with
  | O => ([], Hang)
  | S f =>
      match Scanner.next sc with
      | Ok (None, _) => ([], Ok tt)
      | Ok (Some t, sc') => let (ts, e) := stream_from f sc' in (t :: ts, e)
      | Err e => ([], Err e)
      | Panic => ([], Panic)
      | Hang => ([], Hang)
      | Exit => ([], Exit)
      end
  end.
Definition scan_stream (src : bytes) (files : list bytes) : stream :=
  stream_from (List.length src + 2) (new_with_stack src files).

(** ** Inline stack *)

(** parser.rs 1216-1249 [add_text_to_last_inline] and 1251-1284
    [pass_text_to_last_inline] (which differ only in taking the text or the
    lexeme of the token) *)
Definition add_to_last_inline (pass : bool) (t : token) (p : pstate) : result pstate :=
  let il := if pass then lit_pass t else lit_text t in
  let push := Ok (set_istack (il :: p_istack p) p) in
  match p_istack p with
  | [] => push
  | i :: r =>
      match i with
      | ISpan _ _ _ _ _ _ =>
          if p_in_span p then Ok (set_istack (span_add i il :: r) p) else push
      | ILit LCharref _ _ _ => push
      | ILit LText _ _ _ =>
          Ok (set_istack (lit_append i (if pass then lexeme t else token_text t)
                                     (token_locations t) :: r) p)
      | IRef _ _ _ _ _ =>
          if negb (p_close_parent p) then
            let* i' := ref_text_from_token i t pass in Ok (set_istack (i' :: r) p)
          else push
      | IBreak _ => push
      end
  end.
Definition add_text_to_last_inline := add_to_last_inline false.
Definition pass_text_to_last_inline := add_to_last_inline true.

(** [rposition(f)] on a stack kept most recent first: the elements above the
    match (most recent first), the match, and the elements below *)
Fixpoint split_at_first {A} (f : A -> bool) (l : list A) : option (list A * A * list A) :=
  match l with
  | [] => None
  | x :: r =>
      if f x then Some ([], x, r)
      else match split_at_first f r with
           | Some (a, y, b) => Some (x :: a, y, b)
           | None => None
           end
  end.

(** parser.rs 1312-1327: merge adjacent literals; input and result in queue
    order, [acc] is [temp_stack] most recent first *)
Fixpoint merge_literals (acc : list inline) (l : list inline) : list inline :=
  match l with
  | [] => rev acc
  | i :: r =>
      match acc, i with
      | (ILit _ _ _ _ as last) :: acc', ILit _ _ v loc =>
          merge_literals (lit_append last v loc :: acc') r
      | _, _ => merge_literals (i :: acc) r
      end
  end.

(** parser.rs 1286-1346 [handle_dangling_spans] *)
Definition handle_dangling_spans (p : pstate) : result pstate :=
  match split_at_first is_open (p_istack p) with
  | None => Ok p
  | Some (above, open_span, below) =>
      let* lit := produce_literal open_span in
      let* children := extract_children open_span in
      match children with
      | c :: cs =>
          let* c' := prepend_literal c lit (Some (inline_locs open_span)) in
          let queue := rev below ++ (c' :: cs) ++ rev above in
          Ok (set_istack (rev (merge_literals [] queue)) p)
      | [] =>
          let '(line, sc, ec) := destructure_inline_locations (inline_locs open_span) in
          add_text_to_last_inline (mkTok TText lit (Some lit) line sc ec (p_files p))
                                  (set_istack (above ++ below) p)
      end
  end.

(** ** Block stack *)

(** parser.rs 1197-1214 [push_block_to_stack] *)
Definition push_block_to_stack (b : block) (p : pstate) : result pstate :=
  if p_in_cont p && match p_open_lines p with [] => true | _ => false end then
    match p_bstack p with
    | [] => Err EBlockContinuation
    | l :: r =>
        let* l' := push_block l b in
        Ok (set_in_cont false (set_bstack (l' :: r) p))
    end
  else
    match p_meta p with
    | Some m =>
        let* b' := add_metadata b m in
        Ok (set_bstack (b' :: p_bstack p) (set_meta None p))
    | None => Ok (set_bstack (b :: p_bstack p) p)
    end.

Fixpoint push_inlines (b : block) (l : list inline) : result block :=
  match l with
  | [] => Ok b
  | i :: r => let* b' := push_inline b i in push_inlines b' r
  end.

Definition empty {A} (l : list A) : bool := match l with [] => true | _ => false end.

(** parser.rs 1375-1421: the tail of [add_inlines_to_block_stack], which makes a
    new paragraph of the inlines *)
Definition new_paragraph (p : pstate) : result pstate :=
  let inlines := rev (p_istack p) in
  let locs := match inlines with i :: _ => inline_locs i | [] => [] end in
  let* para := push_inlines (Blk (HLeaf NParagraph FmParagraph None []) None [] locs) inlines in
  let p := set_istack [] p in
  if p_in_cont p && empty (p_open_lines p) then
    match p_bstack p with
    | [] => Err EBlockContinuation
    | l :: r => let* l' := push_block l para in Ok (set_bstack (l' :: r) p)
    end
  else
    match p_meta p with
    | Some bm =>
        let* line_above := match locs with l :: _ => Ok (loc_line l + 1) | [] => Panic end in
        if (match p_open_lines p with l :: _ => l =? line_above | [] => false end)
           || (empty (p_open_lines p)
               && match m_type bm with Some AQuote => true | _ => false end)
        then
          let* q := push_block (Blk (HParent PQuote None [] []) None [] []) para in
          push_block_to_stack q p
        else push_block_to_stack para p
    | None => push_block_to_stack para p
    end.

(** parser.rs 1348-1421 [add_inlines_to_block_stack] *)
Definition add_inlines_to_block_stack (p : pstate) : result pstate :=
  match p_istack p with
  | [] => Ok p
  | _ =>
      let* p := if p_in_span p then handle_dangling_spans p else Ok p in
      match p_header p with
      | Some h =>
          Ok (set_istack [] (set_header (Some (mkHeader (hd_title h ++ rev (p_istack p))
                                                        (hd_loc h))) p))
      | None =>
          match p_bstack p with
          | l :: r =>
              if takes_inlines l && negb (p_in_line p) && negb (p_force_new p) then
                let* l' := push_inlines l (rev (p_istack p)) in
                Ok (set_bstack (l' :: r) (set_istack [] p))
              else new_paragraph p
          | [] => new_paragraph p
          end
      end
  end.

(** parser.rs 1424-1431 [add_metadata_from_token] *)
Definition p_add_metadata_from_token (w : world) (t : token) (p : pstate) : result pstate :=
  let* m := match p_meta p with
            | Some m => add_metadata_from_token w m t
            | None => new_block_meta_from_token w t
            end in
  Ok (set_meta (Some m) p).

(** parser.rs 1433-1451 [add_last_list_item_to_list] *)
Definition add_last_list_item_to_list (p : pstate) : result pstate :=
  let* p := add_inlines_to_block_stack (set_force_new false p) in
  match p_bstack p with
  | [] => Panic
  | item :: r =>
      let p := set_bstack r p in
      if is_list_item item || is_dlist_item item then
        match r with
        | l :: r' => let* l' := push_block l item in Ok (set_bstack (l' :: r') p)
        | [] => Ok p
        end
      else push_block_to_stack item p
  end.

Definition p_asg_push (b : block) (p : pstate) : result pstate :=
  let* a := asg_push_block (p_asg p) b in Ok (set_asg a p).

(** parser.rs 1464-1467 and 1489-1492: the pending metadata goes to the block *)
Definition take_metadata (b : block) (p : pstate) : result (block * pstate) :=
  match p_meta p with
  | Some m => let* b' := add_metadata b m in Ok (b', set_meta None p)
  | None => Ok (b, p)
  end.

(** parser.rs 1453-1470 [add_to_block_stack_or_graph] *)
Definition add_to_block_stack_or_graph (b : block) (p : pstate) : result pstate :=
  let to_graph := let* (b', p') := take_metadata b p in p_asg_push b' p' in
  match p_bstack p with
  | l :: r =>
      if takes_block l b then let* l' := push_block l b in Ok (set_bstack (l' :: r) p)
      else to_graph
  | [] => to_graph
  end.

(** parser.rs 1472-1485 [add_last_to_block_stack_or_graph] *)
Definition add_last_to_block_stack_or_graph (p : pstate) : result pstate :=
  match p_bstack p with
  | [] => Err EBlockStack
  | b :: r =>
      let p := set_bstack r p in
      match r with
      | l :: r' =>
          if takes_block l b then let* l' := push_block l b in Ok (set_bstack (l' :: r') p)
          else p_asg_push b p
      | [] => p_asg_push b p
      end
  end.

(** parser.rs 1487-1504 [add_last_block_to_graph] *)
Definition add_last_block_to_graph (p : pstate) : result pstate :=
  match p_bstack p with
  | [] => Ok p
  | b0 :: r =>
      let* (b, p) := take_metadata b0 (set_bstack r p) in
      match r with
      | l :: r' =>
          if takes_block l b then let* l' := push_block l b in Ok (set_bstack (l' :: r') p)
          else p_asg_push b p
      | [] => p_asg_push b p
      end
  end.

(** parser.rs 159-161 and 630-632: [while self.block_stack.len() > n
    { add_last_block_to_graph }]; each step removes one block *)
Fixpoint flush_blocks (fuel n : nat) (p : pstate) : result pstate :=
  if List.length (p_bstack p) <=? n then Ok p
  else match fuel with
       | O => Hang
       | S f => let* p := add_last_block_to_graph p in flush_blocks f n p
       end.
Definition flush_to (n : nat) (p : pstate) : result pstate :=
  flush_blocks (List.length (p_bstack p)) n p.

(** ** Document header, attributes *)

(** parser.rs 430-441 [check_and_move_header] *)
Definition check_and_move_header (w : world) (p : pstate) : result pstate :=
  let* p := add_inlines_to_block_stack p in
  let p :=
    match p_header p with
    | Some h =>
        match hd_title h with
        | [] => p
        | _ => set_asg (asg_add_header w (p_asg p) (header_consolidate h) (p_attrs p)) p
        end
    | None => p
    end in
  Ok (set_header None p).

(** parser.rs 392-409 [parse_level_offset] *)
Definition parse_level_offset (w : world) (value : bytes) (p : pstate) : result pstate :=
  match parse_usize value with
  | Some n => Ok (set_offset (wrap_i8 (Z.of_N n)) p)
  | None =>
      match parse_i8 value with
      | Some z => let* o := add_i8 w (p_offset p) z in Ok (set_offset o p)
      | None => Err (EInternal [])
      end
  end.

(** parser.rs 368-390 [parse_attribute] *)
Definition parse_attribute (w : world) (t : token) (p : pstate) : result pstate :=
  match split_terminator (fun c => Ascii.eqb c ":") (token_text t) with
  | [] => Panic
  | _ :: comps =>
      match comps with
      | [] => Ok p
      | key :: _ =>
          let v0 := trim (last comps []) in
          let value := if beqb key v0 then [] else v0 in
          if beqb key (bs "leveloffset") then parse_level_offset w value p
          else Ok (set_attrs (minsert key value (p_attrs p)) p)
      end
  end.

(** parser.rs 411-427 *)
Definition parse_block_attributes (w : world) (t : token) (p : pstate) : result pstate :=
  let* p := p_add_metadata_from_token w t p in Ok (set_force_new true p).
Definition parse_inline_element_attributes (t : token) (p : pstate) : result pstate :=
  let* m := new_inline_meta_from_token t in
  Ok (set_force_new true (set_meta (Some m) p)).

(** parser.rs 445-494 [parse_new_line_char] *)
Definition parse_new_line_char (w : world) (t : token) (p : pstate) : result pstate :=
  let p := set_in_line false p in
  let p := match p_title p with
           | Some ti => set_istack [] (set_title (Some (ti ++ rev (p_istack p))) p)
           | None => p
           end in
  if tt_eqb (p_last p) TNewLineChar || tt_eqb (p_last p) TEof then
    let p := set_dangling None p in
    match p_header p with
    | Some _ => check_and_move_header w p
    | None =>
        let* p :=
          match p_bstack p with
          | b :: _ => if is_list_item b || is_dlist_item b
                      then add_last_list_item_to_list p else Ok p
          | [] => Ok p
          end in
        let* p := add_inlines_to_block_stack (set_in_span false p) in
        let p := set_force_new true p in
        match p_bstack p with
        | [] => Ok p
        | b :: r =>
            let p := set_bstack r p in
            if negb (is_section b) && empty (p_open_lines p) then
              let* p := add_to_block_stack_or_graph b p in
              if p_close_parent p && negb (empty (p_bstack p)) then
                let* p := add_last_to_block_stack_or_graph p in
                Ok (set_close_parent false p)
              else Ok p
            else push_block_to_stack b p
        end
    end
  else if p_in_cont p || clears_newline_after (p_last p) then Ok (set_dangling None p)
  else Ok (set_dangling (Some t) p).

(** parser.rs 496-514 *)
Definition parse_break (v : break_variant) (t : token) (p : pstate) : result pstate :=
  add_to_block_stack_or_graph (new_break v (token_locations t)) p.

(** ** Lists *)

(** parser.rs 640-679 [parse_description_list_term] *)
Fixpoint split_at_newline (l : list inline) : option (list inline * list inline) :=
  match l with
  | [] => None
  | i :: r =>
      if is_newline i then Some ([], r)
      else match split_at_newline r with
           | Some (a, b) => Some (i :: a, b)
           | None => None
           end
  end.
Definition parse_description_list_term (t : token) (p : pstate) : result pstate :=
  let p := set_force_new false p in
  let* p :=
    match split_at_newline (rev (p_istack p)) with
    | Some (before, next_terms) =>
        let* p := add_inlines_to_block_stack (set_istack (rev before) p) in
        Ok (set_istack (rev next_terms ++ p_istack p) p)
    | None => Ok p
    end in
  let item := new_dlist_item (rev (p_istack p)) (token_locations t) in
  let p := set_istack [] p in
  let* p :=
    if match p_bstack p with b :: _ => is_dlist_item b | [] => false end
    then add_last_list_item_to_list p
    else push_block_to_stack (new_dlist (b_locs item)) p in
  let* p := push_block_to_stack item p in
  Ok (set_preserve_nl true p).

(** parser.rs 681-709 [parse_ordered_list_item] *)
Definition parse_ordered_list_item (t : token) (p : pstate) : result pstate :=
  let p := set_dangling None p in
  let item := new_list_item (lexeme t) (token_locations t) in
  let* p :=
    if match p_bstack p with b :: _ => is_ordered_list_item b | [] => false end
    then add_last_list_item_to_list p
    else
      if tt_eqb (ttype t) TCodeCalloutListItem then
        let* p :=
          match p_bstack p with
          | b :: _ => if is_source_block b then add_last_to_block_stack_or_graph p else Ok p
          | [] => Ok p
          end in
        push_block_to_stack (Blk (HList LOrdered) (Some (meta_with_role (bs "colist"))) []
                                 (token_locations t)) p
      else push_block_to_stack (new_list LOrdered (token_locations t)) p in
  push_block_to_stack item p.

(** parser.rs 711-730 [parse_unordered_list_item] *)
Definition parse_unordered_list_item (t : token) (p : pstate) : result pstate :=
  let p := set_dangling None p in
  let item := new_list_item (lexeme t) (token_locations t) in
  let* p :=
    if match p_bstack p with b :: _ => is_unordered_list_item b | [] => false end
    then add_last_list_item_to_list p
    else push_block_to_stack (new_list LUnordered (token_locations t)) p in
  push_block_to_stack item p.

(** ** Headings *)

(** parser.rs 781-811 [get_heading_level] *)
Definition heading_base (ty : token_type) : option Z :=
  match ty with
  | THeading1 => Some 0%Z
  | THeading2 => Some 1%Z
  | THeading3 => Some 2%Z
  | THeading4 => Some 3%Z
  | THeading5 => Some 4%Z
  | _ => None
  end.
Definition get_heading_level (w : world) (t : token) (p : pstate) : result nat :=
  match heading_base (ttype t) with
  | None => Err (EInternal [])
  | Some b =>
      let* level := if tt_eqb (ttype t) THeading1 then Ok (p_offset p)
                    else add_i8 w b (p_offset p) in
      if ((1 <=? level) && (level <=? 4))%Z then Ok (Z.to_nat level)
      else Err (EHeadingOffset (tline t) (p_offset p))
  end.

(** parser.rs 752-778 [parse_section_headings] *)
Definition parse_section_headings (w : world) (t : token) (p : pstate) : result pstate :=
  let* level := get_heading_level w t p in
  let* p :=
    match p_bstack p with
    | b :: _ => if is_section b then add_last_to_block_stack_or_graph p else Ok p
    | [] => Ok p
    end in
  let* p := push_block_to_stack (new_section level (first_location t)) p in
  Ok (set_force_new false (set_dangling None (set_in_line true p))).

(** parser.rs 734-750 [parse_title] *)
Definition parse_title (w : world) (t : token) (p : pstate) : result pstate :=
  if negb (p_offset p =? 0)%Z then parse_section_headings w t p
  else if loc_eqb (first_location t) (mkLoc 1 1 []) then
    Ok (set_header (Some (mkHeader [] (token_locations t))) (set_in_line true p))
  else Err (ETopLevelHeading (tline t)).

(** parser.rs 813-825 *)
Definition parse_admonition_para_syntax (t : token) (p : pstate) : result pstate :=
  let* b := parent_from_token t in
  Ok (set_close_parent true (set_bstack (b :: p_bstack p) p)).
Definition parse_block_continuation (p : pstate) : result pstate :=
  let* p := add_inlines_to_block_stack p in
  Ok (set_force_new true (set_in_cont true p)).

(** ** Inlines *)

(** parser.rs 849-864: the tail of [parse_inline_span] *)
Definition parse_inline_span_new (i : inline) (p : pstate) : result pstate :=
  let* p :=
    match p_dangling p with
    | Some nl => let* p := add_text_to_last_inline nl p in Ok (set_dangling None p)
    | None => Ok p
    end in
  let* p := handle_dangling_spans p in
  let* (i, p) :=
    match p_meta p with
    | Some m => let* i' := inline_add_metadata i m in Ok (i', set_meta None p)
    | None => Ok (i, p)
    end in
  Ok (set_in_span true (set_istack (i :: p_istack p) p)).

(** parser.rs 828-865 [parse_inline_span] *)
Definition parse_inline_span (i : inline) (p : pstate) : result pstate :=
  match p_istack p with
  | l :: r =>
      if inline_eqb i l then
        let* l' := inline_close (inline_reconcile l (inline_locs i)) in
        Ok (set_in_span false (set_istack (l' :: r) p))
      else
        match l with
        | ISpan v f kids m loc o =>
            match last_opt kids with
            | Some k =>
                if inline_eqb i k then
                  let* kids' :=
                    upd_last (fun x => inline_close (inline_reconcile x (inline_locs i))) kids in
                  Ok (set_istack (ISpan v f kids' m loc o :: r) p)
                else Ok (set_istack (span_add l i :: r) p)
            | None => Ok (set_istack (span_add l i :: r) p)
            end
        | _ => parse_inline_span_new i p
        end
  | [] => parse_inline_span_new i p
  end.

Definition push_inline_back (i : inline) (p : pstate) : pstate := set_istack (i :: p_istack p) p.

(** parser.rs 1517-1536 [resolve_target] *)
Definition resolve_path (origin : bytes) (files : list bytes) (target : bytes) : bytes :=
  path_join (fold_left (fun d f => match path_parent f with Some q => path_join d q | None => d end)
                       files origin) target.
Definition resolve_target (w : world) (line : nat) (target : bytes) (p : pstate) : result bytes :=
  match w_canon w (resolve_path (p_origin p) (p_files p) target) with
  | Some q => Ok q
  | None => Err (ETargetResolution line target)
  end.

(** parser.rs 1506-1515 [check_target] *)
Definition check_target (w : world) (line : nat) (target : bytes) (p : pstate) : result unit :=
  if p_resolve p then let* _ := resolve_target w line target p in Ok tt else Ok tt.

(** parser.rs 881-895 [parse_block_image] *)
Definition parse_block_image (w : world) (t : token) (p : pstate) : result pstate :=
  let* (target, m) := target_and_attrs_from_token w t in
  let* _ := check_target w (tline t) target p in
  let (m, p) := match p_meta p with
                | Some pm => (Some (macro_meta m pm), set_meta None p)
                | None => (m, p)
                end in
  let (cap, p) := match p_title p with
                  | Some c => (c, set_title None p)
                  | None => ([], p)
                  end in
  add_to_block_stack_or_graph (Blk (HMacro target cap) m [] (token_locations t)) p.

(** parser.rs 897-908 [parse_inline_image_macro]; the result of [check_target]
    is discarded *)
Definition parse_inline_image_macro (w : world) (t : token) (p : pstate) : result pstate :=
  let* (target, m) := target_and_attrs_from_token w t in
  Ok (set_close_parent true
        (push_inline_back (new_inline_image target m (token_locations t)) p)).

(** parser.rs 910-917 [parse_footnote_macro] *)
Definition parse_footnote_macro (t : token) (p : pstate) : result pstate :=
  let* s := span_from_token t in Ok (set_in_span true (push_inline_back s p)).

(** parser.rs 924-950 [parse_inline_macro_close] *)
Fixpoint inline_push_all (i : inline) (l : list inline) : result inline :=
  match l with
  | [] => Ok i
  | c :: r => let* i' := inline_push i c in inline_push_all i' r
  end.
Definition parse_inline_macro_close (t : token) (p : pstate) : result pstate :=
  match p_open_type p with
  | Some TPassthroughInlineMacro => Ok (set_open_type None p)
  | _ =>
      match split_at_first is_macro (p_istack p) with
      | Some (above, m, below) =>
          let* m := inline_push_all m (rev above) in
          let* m := consolidate_from_token m t in
          Ok (set_in_span false (set_close_parent true (set_istack (m :: below) p)))
      | None => add_text_to_last_inline t p
      end
  end.

(** the newline handling shared by parser.rs 996-1017, 1019-1040, 1042-1059:
    [Some p] is the early return *)
Definition flush_dangling (lit : inline) (p : pstate) : result (pstate * bool) :=
  match p_dangling p with
  | Some nl =>
      if p_preserve_nl p then
        let p := set_dangling None (push_inline_back (lit_text nl) p) in
        Ok (push_inline_back lit p, true)
      else
        let* p := add_text_to_last_inline nl p in Ok (set_dangling None p, false)
  | None => Ok (p, false)
  end.

(** parser.rs 996-1017 [parse_text] *)
Definition parse_text (t : token) (p : pstate) : result pstate :=
  let* (p, done) := flush_dangling (lit_text t) p in
  if (done : bool) then Ok p else add_text_to_last_inline t p.

(** parser.rs 1019-1040 [pass_text_through] *)
Definition pass_text_through (t : token) (p : pstate) : result pstate :=
  let* (p, done) := flush_dangling (lit_pass t) p in
  if (done : bool) then Ok p else pass_text_to_last_inline t p.

(** parser.rs 1042-1085 [parse_charref] *)
Definition parse_charref (t : token) (p : pstate) : result pstate :=
  let il := lit_charref t in
  let* (p, done) := flush_dangling il p in
  if (done : bool) then Ok p
  else
    match p_istack p with
    | (ISpan _ _ _ _ _ _ as s) :: r =>
        if p_in_span p then Ok (set_istack (span_add s il :: r) p)
        else Ok (push_inline_back il p)
    | IRef v tg l m loc :: r =>
        if negb (p_close_parent p)
        then Ok (set_istack (IRef v tg (l ++ [il]) m loc :: r) p)
        else Ok (push_inline_back il p)
    | _ => Ok (push_inline_back il p)
    end.

(** parser.rs 954-971 [parse_attribute_reference] *)
Definition parse_attribute_reference (t : token) (p : pstate) : result pstate :=
  let* key := inner (token_text t) 1 1 in
  let t' :=
    match mget key (p_attrs p) with
    | Some v => mkTok (ttype t) (lexeme t) (Some v) (tline t) (startcol t)
                      (startcol t + List.length v - 1) (tfiles t)
    | None => t
    end in
  parse_text t' p.

(** parser.rs 973-978 [parse_cross_reference] *)
Definition parse_cross_reference (t : token) (p : pstate) : result pstate :=
  let* x := new_xref t in Ok (set_close_parent true (push_inline_back x p)).

(** parser.rs 980-994 [parse_code_callout]: [todo!()] under [:icons: true] *)
Definition parse_code_callout (t : token) (p : pstate) : result pstate :=
  match mget (bs "icons") (p_attrs p), p_istack p with
  | Some v, _ :: _ =>
      if beqb v (bs "true") then Panic
      else let* s := span_from_token t in Ok (push_inline_back s p)
  | _, _ => let* s := span_from_token t in Ok (push_inline_back s p)
  end.

(** ** Delimited blocks *)

(** parser.rs 1087-1108 [parse_delimited_leaf_block] *)
Definition parse_delimited_leaf_block (t : token) (p : pstate) : result pstate :=
  match p_open_type p with
  | Some _ =>
      let* p := add_inlines_to_block_stack p in
      match p_bstack p with
      | b :: r =>
          let* b' := add_locations b (token_locations t) in
          let* p := push_block_to_stack b' (set_bstack r p) in
          Ok (set_open_type None p)
      | [] => Err (EOpenParse (tline t))
      end
  | None =>
      let p := set_open_type (Some (ttype t)) p in
      let* b := leaf_from_token t in
      let* p := push_block_to_stack b p in
      Ok (set_force_new false p)
  end.

Fixpoint push_blocks (b : block) (l : list block) : result block :=
  match l with
  | [] => Ok b
  | x :: r => let* b' := push_block b x in push_blocks b' r
  end.

(** parser.rs 1110-1166 [parse_delimited_parent_block].  [rposition] finds the
    topmost parent block; [drain(idx..)] takes what lies above it. *)
Definition set_block_title (b : block) (ti : list inline) : block :=
  match b with
  | Blk (HParent n v d _) m k loc => Blk (HParent n v d ti) m k loc
  | _ => b
  end.
Definition parse_delimited_parent_block (t : token) (p : pstate) : result pstate :=
  let delimiter_line := tline t in
  let* block0 := parent_from_token t in
  let p := set_dangling None p in
  let (block, p) := match p_title p with
                    | Some ti => (set_block_title block0 ti, set_title None p)
                    | None => (block0, p)
                    end in
  let open_new p :=
    push_block_to_stack block (set_open_lines (delimiter_line :: p_open_lines p) p) in
  match split_at_first is_parent (p_bstack p) with
  | None => open_new p
  | Some (above, matched, below) =>
      if parent_eqb matched block then
        let* p := add_inlines_to_block_stack (set_bstack (above ++ below) p) in
        match p_open_lines p with
        | [] => Err EDelimitedBlock
        | _ :: lines =>
            let p := set_open_lines lines p in
            let* _ := block_line matched in
            let n := List.length (p_bstack p) in
            let idx := List.length below in
            if n <? idx then Panic
            else
              let drained := rev (firstn (n - idx) (p_bstack p)) in
              let p := set_bstack (skipn (n - idx) (p_bstack p)) p in
              let* b :=
                match matched with
                | Blk h m k loc => push_blocks (Blk h m k (reconcile loc (b_locs block))) drained
                end in
              let* b := if is_table b then consolidate_table_info b else Ok b in
              let* p := push_block_to_stack b p in
              Ok (set_in_cont false p)
        end
      else open_new p
  end.

(** ** Includes *)

Record include_spec := mkInc {
  inc_lines : list interval;
  inc_to_end : bool;
  inc_tags : list bytes;
  inc_adoc : bool }.

(** parser.rs 532-554 and 564-569: what the attributes of the directive select *)
Definition ends_adoc (target : bytes) : bool :=
  memb (last (split_on (fun c => Ascii.eqb c ".") target) [])
       [bs "adoc"; bs "asciidoc"; bs "txt"].
Definition include_spec_of (w : world) (target : bytes) (m : option metadata)
  : result include_spec :=
  match m with
  | None => Ok (mkInc [] false [] (ends_adoc target))
  | Some md =>
      let* (lines, to_end) :=
        match mget (bs "lines") (m_attrs md) with
        | Some v =>
            let* l := extract_page_ranges w v in
            match iv_last l with
            | Some z => if (z =? -1)%Z then Ok (iv_pop l, true) else Ok (l, false)
            | None => Ok (l, false)
            end
        | None => Ok ([], false)
        end in
      let t1 := match mget (bs "tag") (m_attrs md) with Some v => [v] | None => [] end in
      let t2 := match mget (bs "tags") (m_attrs md) with
                | Some v => split_on (fun c => Ascii.eqb c ";") v
                | None => []
                end in
      Ok (mkInc lines to_end (t1 ++ t2) (ends_adoc target))
  end.

(** parser.rs 574-607: the filter of the include loop on one token; the state is
    the line selection and the current tag.  [None] means [continue]. *)
Definition include_lines_step (to_end : bool) (lines : list interval) (line : nat)
  : bool * list interval :=
  match lines with
  | [] => (true, [])
  | _ =>
      if negb (iv_contains lines (Z.of_nat line)) then (false, lines)
      else if to_end && match iv_last lines with Some z => (z <=? Z.of_nat line)%Z | None => false end
      then (true, [])
      else (true, lines)
  end.
Definition include_tags_step (tags : list bytes) (cur : option bytes) (t : token)
  : result (bool * option bytes) :=
  match tags with
  | [] => Ok (true, cur)
  | _ =>
      let* tag := token_tag t in
      match ttype t, tag with
      | TStartTag, Some tg =>
          if memb tg tags then Ok (false, Some tg)
          else Ok (match cur with Some _ => true | None => false end, cur)
      | TEndTag, Some tg =>
          match cur with
          | Some c => if beqb c tg then Ok (false, None) else Ok (true, cur)
          | None => Ok (false, cur)
          end
      | _, _ => Ok (match cur with Some _ => true | None => false end, cur)
      end
  end.
(** one token of the loop: whether it is passed on, and the new filter state *)
Definition include_step (s : include_spec) (st : list interval * option bytes) (t : token)
  : result (bool * (list interval * option bytes)) :=
  let (keep, lines) := include_lines_step (inc_to_end s) (fst st) (tline t) in
  if negb keep then Ok (false, (lines, snd st))
  else
    let* (keep, cur) := include_tags_step (inc_tags s) (snd st) t in
    Ok (keep, (lines, cur)).

(** the part of [token_into] before the dispatch (parser.rs 169-213):
    [PreGo] continues with the dispatch *)
Inductive pre_action := PreText | PrePass | PreGo.
Definition pre_dispatch (t : token) (p : pstate) : pre_action :=
  match p_open_type p with
  | None => PreGo
  | Some ty =>
      match ty with
      | TQuoteVerseBlock =>
          if tt_eqb (ttype t) TQuoteVerseBlock || is_inline t then PreGo else PreText
      | TPassthroughInlineMacro =>
          if tt_eqb (ttype t) TPassthroughInlineMacro || tt_eqb (ttype t) TInlineMacroClose
          then PreGo else PrePass
      | TPassthroughBlock | TLiteralBlock | TCommentBlock =>
          if tt_eqb (ttype t) ty then PreGo else PrePass
      | TSourceBlock =>
          if tt_eqb (ttype t) TSourceBlock || tt_eqb (ttype t) TCodeCallout
             || tt_eqb (ttype t) TInclude
          then PreGo else PrePass
      | _ => PreGo
      end
  end.

(** parser.rs 297-311: the branch for [QuoteVerseBlock] *)
Definition parse_quote_verse (t : token) (p : pstate) : result pstate :=
  match p_meta p with
  | Some m =>
      match m_type m with
      | Some AVerse => parse_delimited_leaf_block t p
      | _ => parse_delimited_parent_block t p
      end
  | None =>
      match p_open_type p with
      | Some _ => parse_delimited_leaf_block t p
      | None => parse_delimited_parent_block t p
      end
  end.

(** parser.rs 342-356: the branch for [CommentBlock] *)
Definition parse_comment_block (t : token) (p : pstate) : result pstate :=
  match p_open_type p with
  | Some TCommentBlock =>
      Ok (set_open_type None
            (set_force_new true
               (set_bstack (tl (p_bstack p)) (set_istack [] p))))
  | Some _ => Ok p
  | None => parse_delimited_leaf_block t p
  end.

(** parser.rs 227-234: the branch for [BlockLabel] *)
Definition parse_block_label (p : pstate) : pstate :=
  set_dangling None (set_in_line true (set_title (Some []) p)).

(** parser.rs 215-365: the dispatch of [token_into], for the tokens that do not
    start another scan ([Include] and [TableCell] are handled in [token_into]) *)
Definition dispatch (w : world) (t : token) (p : pstate) : result pstate :=
  match ttype t with
  | THeading1 => parse_title w t p
  | THeading2 | THeading3 | THeading4 | THeading5 => parse_section_headings w t p
  | TAttribute => parse_attribute w t p
  | TBlockLabel => Ok (parse_block_label p)
  | TBlockAnchor | TElementAttributes => parse_block_attributes w t p
  | TInlineStyle => parse_inline_element_attributes t p
  | TNewLineChar => parse_new_line_char w t p
  | TText => parse_text t p
  | TCharRef => parse_charref t p
  | TStrong | TMark | TMonospace | TLiteral | TEmphasis | TSuperscript | TSubscript
  | TUnconstrainedStrong | TUnconstrainedMark | TUnconstrainedMonospace
  | TUnconstrainedLiteral | TUnconstrainedEmphasis =>
      let* s := span_from_token t in parse_inline_span s p
  | TOpenDoubleQuote | TCloseDoubleQuote | TOpenSingleQuote | TCloseSingleQuote => parse_text t p
  | TAttributeReference => parse_attribute_reference t p
  | TCrossReference => parse_cross_reference t p
  | TStartTag | TEndTag => Ok p
  | TFootnoteMacro => parse_footnote_macro t p
  | TLinkMacro => Ok (push_inline_back (new_link_macro t) p)
  | THyperlink => Ok (push_inline_back (new_link t) p)
  | TInlineImageMacro => parse_inline_image_macro w t p
  | TPassthroughInlineMacro => Ok (set_open_type (Some (ttype t)) p)
  | TInlineMacroClose => parse_inline_macro_close t p
  | TPageBreak => parse_break BPage t p
  | TThematicBreak => parse_break BThematic t p
  | TLineContinuation => Ok (push_inline_back (IBreak (token_locations t)) p)
  | TSidebarBlock | TOpenBlock | TExampleBlock | TTable => parse_delimited_parent_block t p
  | TQuoteVerseBlock => parse_quote_verse t p
  | TPassthroughBlock | TLiteralBlock | TSourceBlock => parse_delimited_leaf_block t p
  | TCodeCallout => parse_code_callout t p
  | TBlockImageMacro => parse_block_image w t p
  | TUnorderedListItem => parse_unordered_list_item t p
  | TCodeCalloutListItem | TOrderedListItem => parse_ordered_list_item t p
  | TDescriptionListMarker => parse_description_list_term t p
  | TNotePara | TTipPara | TImportantPara | TCautionPara | TWarningPara =>
      parse_admonition_para_syntax t p
  | TBlockContinuation => parse_block_continuation p
  | TComment => Ok p
  | TCommentBlock => parse_comment_block t p
  | TEof => match p_header p with Some _ => check_and_move_header w p | None => Ok p end
  | TEmail => Panic (* todo!() *)
  | TInclude | TTableCell => Hang (* not reached: see [token_into] *)
  end.

(** parser.rs 570-624: the loop of [parse_include], given what to do with a token *)
Section Loops.
  Variable w : world.
  Variable rec : token -> pstate -> result pstate.

  Fixpoint include_loop (s : include_spec) (st : list interval * option bytes)
           (ts : list token) (p : pstate) : result pstate :=
    match ts with
    | [] => Ok p
    | t :: r =>
        let* (keep, st') := include_step s st t in
        if (keep : bool) then
          let* p :=
            if inc_adoc s then let* p := rec t p in Ok (set_last (ttype t) p)
            else parse_text t (set_last (if tt_eqb (ttype t) TEof then TEof else TText) p) in
          include_loop s st' r p
        else include_loop s st' r p
    end.

  (** parser.rs 522-636 [parse_include] *)
  Definition parse_include (t : token) (p : pstate) : result pstate :=
    let* (target, m) := target_and_attrs_from_token w t in
    let* p :=
      match m with
      | Some md =>
          match mget (bs "leveloffset") (m_attrs md) with
          | Some v => parse_level_offset w v p
          | None => Ok p
          end
      | None => Ok p
      end in
    let* spec := include_spec_of w target m in
    let* path := resolve_target w (tline t) target p in
    let p := set_files (p_files p ++ [target]) p in
    let n := List.length (p_bstack p) in
    match w_read w path with
    | None => Exit (* open_file, parser.rs 1547 *)
    | Some content =>
        let (ts, e) := scan_stream content (p_files p) in
        let* p := include_loop spec (inc_lines spec, None) ts p in
        let* _ := e in
        let* p := add_inlines_to_block_stack p in
        let* p := flush_to n p in
        Ok (set_files (removelast (p_files p)) p)
    end.

  (** parser.rs 1168-1195 [parse_table_cell] *)
  Fixpoint cell_loop (line col : nat) (ts : list token) (p : pstate) : result pstate :=
    match ts with
    | [] => Ok p
    | t :: r =>
        let* p := rec (update_token_loc_offsets_by t line col) p in
        cell_loop line col r p
    end.
  Definition parse_table_cell (t : token) (p : pstate) : result pstate :=
    let text := token_text t in
    let* contents := slice text 1 (List.length text) in
    let* p := push_block_to_stack (new_cell t) p in
    let p := set_dangling None p in
    let (ts, e) := scan_stream contents [] in
    let* p := cell_loop (tline t) (startcol t) ts p in
    let* _ := e in
    add_inlines_to_block_stack (set_force_new false (set_in_line false p)).
End Loops.

(** parser.rs 167-366 [token_into].  [fuel] bounds the nesting of includes and
    table cells; running out of it is [Hang] (in the code: recursion until the
    stack overflows). *)
Fixpoint token_into (w : world) (fuel : nat) (t : token) (p : pstate) : result pstate :=
  let* p :=
    match p_header p with
    | Some _ => if can_be_in_document_header t then Ok p else check_and_move_header w p
    | None => Ok p
    end in
  match pre_dispatch t p with
  | PreText => parse_text t p
  | PrePass => pass_text_through t p
  | PreGo =>
      match ttype t with
      | TInclude =>
          match fuel with O => Hang | S f => parse_include w (token_into w f) t p end
      | TTableCell =>
          match fuel with O => Hang | S f => parse_table_cell (token_into w f) t p end
      | _ => dispatch w t p
      end
  end.

(** parser.rs 144-154: the loop of [parse] *)
Fixpoint parse_loop (w : world) (fuel : nat) (ts : list token) (p : pstate) : result pstate :=
  match ts with
  | [] => Ok p
  | t :: r =>
      let* p := token_into w fuel t p in
      parse_loop w fuel r (set_last (ttype t) p)
  end.

(** parser.rs 139-165 [parse]: the graph and the parser it leaves behind *)
Definition parse_with (w : world) (fuel : nat) (s : stream) (p : pstate) : result (asg * pstate) :=
  let* p := parse_loop w fuel (fst s) (set_asg new_asg p) in
  let* _ := snd s in
  let* p := add_inlines_to_block_stack p in
  let* p := flush_to 0 p in
  Ok (asg_consolidate (p_asg p), p).

(** [Parser::new(..).parse(Scanner::new(src))] *)
Definition parse (w : world) (fuel : nat) (origin : bytes) (resolve : bool) (src : bytes)
  : result asg :=
  let* (a, _) := parse_with w fuel (scan_stream src []) (new_parser origin resolve) in Ok a.
