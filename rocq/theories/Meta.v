(** * Meta: /repo/src/graph/metadata.rs and /repo/src/utils.rs

    The three regular expressions are modelled by hand; the comment on each
    function gives the expression it stands for. *)
From Verif Require Import Base World Location Token.
Local Open Scope char_scope.
Local Open Scope nat_scope.

(** metadata.rs 16-22 [enum AttributeType] *)
Inductive attribute_type := ARole | AQuote | AVerse | ASource | ALines.
Scheme Boolean Equality for attribute_type.

(** metadata.rs 25-33 [AttributeType::from_str] *)
Definition attribute_type_from_str (s : bytes) : option attribute_type :=
  if beqb s (bs "role") then Some ARole
  else if beqb s (bs "quote") then Some AQuote
  else if beqb s (bs "verse") then Some AVerse
  else if beqb s (bs "source") then Some ASource
  else None.

(** metadata.rs 37-47 [struct ElementMetadata] *)
Record metadata := mkMeta {
  m_attrs : list (bytes * bytes);
  m_options : list bytes;
  m_roles : list bytes;
  m_inline : bool;
  m_type : option attribute_type;
  m_loc : list location }.

Definition default_metadata : metadata := mkMeta [] [] [] false None [].

Definition set_m_attrs (m : metadata) (a : list (bytes * bytes)) : metadata :=
  mkMeta a (m_options m) (m_roles m) (m_inline m) (m_type m) (m_loc m).
Definition set_m_roles (m : metadata) (r : list bytes) : metadata :=
  mkMeta (m_attrs m) (m_options m) r (m_inline m) (m_type m) (m_loc m).
Definition set_m_options (m : metadata) (o : list bytes) : metadata :=
  mkMeta (m_attrs m) o (m_roles m) (m_inline m) (m_type m) (m_loc m).
Definition set_m_type (m : metadata) (t : option attribute_type) : metadata :=
  mkMeta (m_attrs m) (m_options m) (m_roles m) (m_inline m) t (m_loc m).
Definition m_insert (k v : bytes) (m : metadata) : metadata :=
  set_m_attrs m (minsert k v (m_attrs m)).

(** metadata.rs 52-54 [is_empty] *)
Definition meta_is_empty (m : metadata) : bool :=
  match m_attrs m, m_options m, m_roles m with [], [], [] => true | _, _, _ => false end.

(** metadata.rs 56-98 constructors *)
Definition meta_with_role (r : bytes) : metadata := mkMeta [] [] [r] false None [].
Definition meta_with_id (i : bytes) : metadata := mkMeta [(bs "id", i)] [] [] false None [].
Definition meta_with_id_and_roles (i : bytes) (r : list bytes) : metadata :=
  mkMeta [(bs "id", i)] [] r false None [].
Definition meta_inline_with_id (i : bytes) : metadata :=
  mkMeta [(bs "id", i)] [] [] true None [].

(** metadata.rs 100-102 [element_id] *)
Definition element_id (m : metadata) : option bytes := mget (bs "id") (m_attrs m).

(** [&lexeme[a..lexeme.len() - b]] *)
Definition inner {E} (s : bytes) (a b : nat) : res E bytes :=
  if List.length s <? b then Panic else slice s a (List.length s - b).

(** ** utils.rs *)

(** RE_NAMED (metadata.rs 13: lazy text, one of the separators = | , then greedy
    text): the leftmost match starts behind the last newline before the first
    separator; [acc] is the text since that newline (reversed).  The second
    group stops at the next newline, because the dot does not match it. *)
Definition is_named_sep (c : ascii) : bool := memc c ["="; "|"; ","].
Fixpoint take_line (s : bytes) : bytes :=
  match s with
  | [] => []
  | c :: r => if Ascii.eqb c NL then [] else c :: take_line r
  end.
Fixpoint re_named (acc s : bytes) : option (bytes * bytes) :=
  match s with
  | [] => None
  | c :: r =>
      if is_named_sep c then Some (rev acc, take_line r)
      else if Ascii.eqb c NL then re_named [] r
      else re_named (c :: acc) r
  end.

(** utils.rs 12-31 [key_values_from_named_attribute]; [None] is the
    [Err(AttributeError)] case *)
Definition key_values_from_named_attribute (attribute : bytes)
  : result (option (bytes * list bytes)) :=
  match re_named [] attribute with
  | Some (named, values_str) =>
      let* v :=
        if starts_with [DQ] values_str then inner values_str 1 1 else Ok values_str in
      Ok (Some (named, split_on (fun c => Ascii.eqb c SP) v))
  | None => Ok None
  end.

(** RE_NAMED_QUOTED (metadata.rs 12: word characters, an equals sign, a quote,
    lazy text, a quote).  [re_quoted_body] reads the shortest run
    without newline up to a closing quote; [word] is the greedy run of word
    characters directly before the current position (reversed, as characters). *)
Fixpoint re_quoted_body (acc s : bytes) : option (bytes * bytes) :=
  match s with
  | [] => None
  | c :: r =>
      if Ascii.eqb c DQ then Some (rev acc ++ [DQ], r)
      else if Ascii.eqb c NL then None
      else re_quoted_body (c :: acc) r
  end.
Section Quoted.
  Variable w : world.
  (** all matches of [captures_iter], left to right, in the characters [l] *)
  Fixpoint re_named_quoted (fuel : nat) (word : list bytes) (l : list bytes) : list bytes :=
    match fuel with
    | O => []
    | S f =>
        match l with
        | [] => []
        | ch :: r =>
            match ch, r with
            | ["="], ([q]) :: r' =>
                if Ascii.eqb q DQ then
                  match re_quoted_body [] (unchars r') with
                  | Some (body, rest) =>
                      (unchars (rev word) ++ ["="; DQ] ++ body)
                      :: re_named_quoted f [] (chars rest)
                  | None => re_named_quoted f [] r
                  end
                else re_named_quoted f [] r
            | _, _ =>
                if char_word w ch then re_named_quoted f (ch :: word) r
                else re_named_quoted f [] r
            end
        end
    end.

  (** utils.rs 101-112 [extract_attributes] *)
  Definition extract_attributes (attribute_list : bytes) : list bytes :=
    let quoted :=
      re_named_quoted (S (List.length attribute_list)) [] (chars attribute_list) in
    let rest := fold_left (fun s q => remove_all q s) quoted attribute_list in
    quoted ++ split_on (fun c => Ascii.eqb c ",") rest.
End Quoted.

(** ** metadata.rs 202-233 [process_attribute] *)
Definition process_attribute (m : metadata) (idx : nat) (attribute : bytes) : result metadata :=
  match m_type m with
  | Some ASource =>
      if idx =? 1 then Ok (m_insert (bs "language") (trim attribute) m) else Ok m
  | Some AQuote | Some AVerse =>
      if idx =? 1 then Ok (m_insert (bs "attribution") (trim attribute) m)
      else if idx =? 2 then Ok (m_insert (bs "citation") (trim attribute) m)
      else Panic (* todo!() *)
  | Some ALines => Panic (* todo!() *)
  | _ =>
      let* a := if starts_with [DQ] attribute then inner attribute 1 1 else Ok attribute in
      Ok (m_insert (bs "positional_" ++ dec (idx + 1)) a m)
  end.

(** metadata.rs 173-200 [process_attributes], one step of the loop *)
Definition process_one (m : metadata) (idx : nat) (attribute : bytes) : result metadata :=
  let* kv := key_values_from_named_attribute attribute in
  match kv with
  | Some (key, values) =>
      if beqb key (bs "role") then Ok (set_m_roles m (m_roles m ++ values))
      else Ok (m_insert key (join [SP] values) m)
  | None =>
      if (idx =? 0) && (2 <=? List.length attribute) then
        let* head := slice attribute 0 2 in
        if memb head [bs "so"; bs "qu"; bs "ve"]
        then Ok (set_m_type m (attribute_type_from_str attribute))
        else process_attribute m idx attribute
      else match attribute with
           | [] => Ok m
           | _ => process_attribute m idx attribute
           end
  end.
Fixpoint process_from (m : metadata) (idx : nat) (l : list bytes) : result metadata :=
  match l with
  | [] => Ok m
  | a :: r => let* m' := process_one m idx a in process_from m' (S idx) r
  end.
Definition process_attributes (m : metadata) (l : list bytes) : result metadata :=
  process_from m 0 l.

(** metadata.rs 105-126 [new_inline_meta_from_token] *)
Definition new_inline_meta_from_token (t : token) : result metadata :=
  let* class_list := inner (lexeme t) 1 1 in
  Ok (mkMeta [] []
        (filter (fun s => match s with [] => false | _ => true end)
                (split_on (fun c => Ascii.eqb c ".") class_list))
        true None (token_locations t)).

(** metadata.rs 147-157 [add_metadata_from_token] *)
Definition add_metadata_from_token (w : world) (m : metadata) (t : token) : result metadata :=
  match ttype t with
  | TBlockAnchor =>
      let* i := inner (lexeme t) 2 2 in
      if mhas (bs "id") (m_attrs m) then Ok m else Ok (m_insert (bs "id") i m)
  | _ =>
      let* l := inner (lexeme t) 1 1 in
      process_attributes m (extract_attributes w l)
  end.

(** metadata.rs 127-145 [new_block_meta_from_token] *)
Definition new_block_meta_from_token (w : world) (t : token) : result metadata :=
  let m := mkMeta [] [] [] false None (token_locations t) in
  match ttype t with
  | TBlockAnchor =>
      let* i := inner (lexeme t) 2 2 in Ok (m_insert (bs "id") i m)
  | _ =>
      let* l := inner (lexeme t) 1 1 in
      process_attributes m (extract_attributes w l)
  end.

(** metadata.rs 159-171 [add_metadata_from_other].  Line 170 extends the roles
    with the incoming *options*, as written. *)
Definition add_metadata_from_other (m incoming : metadata) : metadata :=
  let attrs := fold_left (fun a kv => minsert (fst kv) (snd kv) a) (m_attrs incoming) (m_attrs m) in
  mkMeta attrs (m_options m ++ m_options incoming) (m_roles m ++ m_options incoming)
         (m_inline m) (m_type m) (m_loc m).

(** metadata.rs 235-248 [simplify_cols] *)
Definition simplify_cols (m : metadata) : result metadata :=
  match mget (bs "cols") (m_attrs m) with
  | None => Ok m
  | Some v =>
      if memc "," v then
        Ok (m_insert (bs "cols") (dec (List.length (split_on (fun c => Ascii.eqb c ",") v))) m)
      else if List.length v =? 2 then
        let* tl := slice v 1 2 in
        if beqb tl (bs "*") then
          let* hd := slice v 0 1 in Ok (m_insert (bs "cols") hd m)
        else Ok m
      else Ok m
  end.

(** [chars().take_while(|c| c != '[')]: number of bytes before the first '[' *)
Fixpoint span_until (s : bytes) : nat :=
  match s with
  | [] => 0
  | c :: r => if Ascii.eqb c "[" then 0 else S (span_until r)
  end.

(** utils.rs 34-66 [target_and_attrs_from_token] *)
Definition target_and_attrs_from_token (w : world) (t : token)
  : result (bytes * option metadata) :=
  let text := token_text t in
  let* rest :=
    match ttype t with
    | TBlockImageMacro => slice text 7 (List.length text)
    | TInlineImageMacro => slice text 6 (List.length text)
    | TInclude => slice text 9 (List.length text)
    | _ => Panic
    end in
  let target := firstn (span_until rest) rest in
  let* attributes :=
    if List.length rest <? 1 then Panic
    else slice rest (List.length target + 1) (List.length rest - 1) in
  match attributes with
  | [] => Ok (target, None)
  | _ =>
      let* m := process_attributes (mkMeta [] [] [] true None [])
                                   (extract_attributes w attributes) in
      Ok (target, Some m)
  end.

(** ** Line ranges of an include (utils.rs 69-99)
    The [Vec<i32>] of selected lines is kept as a list of half-open intervals
    (a range such as [1..2000000000] is a large vector in the code); an interval
    [(a, b)] stands for the run [a, a+1, .., b-1] and is never empty. *)
Definition interval : Type := (Z * Z)%type.
Definition iv_one (z : Z) : interval := (z, (z + 1)%Z).
(** [ranges.extend(start..end)] *)
Definition iv_range (a b : Z) : list interval := if (a <? b)%Z then [(a, b)] else [].

(** [str::split("..")] *)
Fixpoint split_dots (acc s : bytes) : list bytes :=
  match s with
  | [] => [rev acc]
  | c :: r =>
      match r with
      | d :: r' =>
          if Ascii.eqb c "." && Ascii.eqb d "." then rev acc :: split_dots [] r'
          else split_dots (c :: acc) r
      | [] => [rev (c :: acc)]
      end
  end.

(** one capture of RE_LINE_RANGES (a run of characters other than comma and
    semicolon); [is_last] is [peek().is_none()] *)
Definition range_field (w : world) (field : bytes) (is_last : bool) : result (list interval) :=
  match split_dots [] field with
  | [] => Ok []
  | p0 :: ps =>
      let start := match parse_i32 p0 with Some z => z | None => 0%Z end in
      match ps with
      | [p1] =>
          match parse_i32 p1 with
          | Some e =>
              if (e =? -1)%Z then Ok [iv_one start; iv_one (-1)]
              else let* e' := succ_i32 w e in Ok (iv_range start e')
          | None => if is_last then Ok [iv_one start; iv_one (-1)] else Ok []
          end
      | _ => Ok [iv_one start]
      end
  end.
Fixpoint range_fields (w : world) (l : list bytes) : result (list interval) :=
  match l with
  | [] => Ok []
  | f :: r =>
      let* a := range_field w f (match r with [] => true | _ => false end) in
      let* b := range_fields w r in
      Ok (a ++ b)
  end.
(** utils.rs 69-99 [extract_page_ranges].  [captures_iter] of RE_LINE_RANGES
    yields exactly the fields between the separators, empty ones included. *)
Definition extract_page_ranges (w : world) (s : bytes) : result (list interval) :=
  range_fields w (split_on (fun c => memc c [","; ";"]) s).

(** the vector operations the include loop uses *)
Definition iv_contains (l : list interval) (z : Z) : bool :=
  existsb (fun iv => (fst iv <=? z)%Z && (z <? snd iv)%Z) l.
Definition iv_last (l : list interval) : option Z :=
  match last_opt l with Some iv => Some (snd iv - 1)%Z | None => None end.
Definition iv_pop (l : list interval) : list interval :=
  match pop_last l with
  | Some (r, iv) => r ++ iv_range (fst iv) (snd iv - 1)%Z
  | None => []
  end.
