(** * Base: results, byte strings and the parts of Rust's [std] the crate uses.

    A Rust [&str]/[String] is modelled as the list of its UTF-8 bytes
    ([bytes]).  All indices are byte indices, as in Rust.  [usize] is modelled
    as an unbounded natural number (noted in DESIGN.md). *)
From Coq Require Export List Arith Bool Ascii String NArith ZArith Lia.
Export ListNotations.
Open Scope list_scope.
Open Scope nat_scope.

(** ** Outcomes
    Every modelled function that can go wrong returns a [res]:
    [Err] is a Rust [Result::Err] handed to the caller, [Panic] a Rust panic
    (index out of range, slice inside a character, [todo!()], [unwrap] on
    [None]), [Hang] a loop or recursion that never ends, and [Exit] a call of
    [std::process::exit]. *)
Inductive res (E A : Type) : Type :=
| Ok (a : A)
| Err (e : E)
| Panic
| Hang
| Exit.
Arguments Ok {E A} a.
Arguments Err {E A} e.
Arguments Panic {E A}.
Arguments Hang {E A}.
Arguments Exit {E A}.

Definition bind {E A B} (m : res E A) (f : A -> res E B) : res E B :=
  match m with
  | Ok a => f a
  | Err e => Err e
  | Panic => Panic
  | Hang => Hang
  | Exit => Exit
  end.
Notation "'let*' x ':=' m 'in' k" := (bind m (fun x => k))
  (at level 200, x pattern, m at level 100, k at level 200, right associativity).

(** ** Characters and byte strings *)
Notation char := ascii (only parsing).
Notation bytes := (list ascii).

Definition bs (s : string) : bytes := list_ascii_of_string s.

Definition NUL : ascii := "000"%char.
Definition NL : ascii := "010"%char.
Definition SP : ascii := " "%char.
Definition DQ : ascii := "034"%char.

Definition chr (n : nat) : ascii := ascii_of_nat n.

Definition memc (c : ascii) (l : bytes) : bool := existsb (Ascii.eqb c) l.

Fixpoint beqb (a b : bytes) : bool :=
  match a, b with
  | [], [] => true
  | x :: a', y :: b' => Ascii.eqb x y && beqb a' b'
  | _, _ => false
  end.

Definition memb (x : bytes) (l : list bytes) : bool := existsb (beqb x) l.

(** [str::starts_with] *)
Fixpoint starts_with (p s : bytes) : bool :=
  match p, s with
  | [], _ => true
  | x :: p', y :: s' => Ascii.eqb x y && starts_with p' s'
  | _ :: _, [] => false
  end.

(** [str::contains] for a string needle *)
Fixpoint contains (p s : bytes) : bool :=
  starts_with p s || match s with [] => false | _ :: s' => contains p s' end.

Definition ends_with (p s : bytes) : bool := starts_with (rev p) (rev s).

(** A UTF-8 continuation byte (0x80..=0xBF); [str::is_char_boundary(i)] for
    [0 < i < len] is "byte [i] is not a continuation byte". *)
Definition is_cont (b : ascii) : bool :=
  match b with Ascii _ _ _ _ _ _ b6 b7 => b7 && negb b6 end.

Definition is_boundary (s : bytes) (i : nat) : bool :=
  match nth_error s i with
  | Some b => (i =? 0) || negb (is_cont b)
  | None => i =? List.length s
  end.

(** [&s[a..b]]: panics when [a > b], out of range, or inside a character *)
Definition slice {E} (s : bytes) (a b : nat) : res E bytes :=
  if (a <=? b) && (b <=? List.length s) && is_boundary s a && is_boundary s b
  then Ok (firstn (b - a) (skipn a s)) else Panic.

(** [str::split(c)]: the pieces between occurrences of [c] *)
Fixpoint split_on (p : ascii -> bool) (s : bytes) : list bytes :=
  match s with
  | [] => [[]]
  | c :: r =>
      if p c then [] :: split_on p r
      else match split_on p r with
           | w :: ws => (c :: w) :: ws
           | [] => [[c]]
           end
  end.

(** [str::split_terminator(c)]: [split] without a trailing empty piece *)
Definition split_terminator (p : ascii -> bool) (s : bytes) : list bytes :=
  let l := split_on p s in
  match rev l with
  | [] :: r => rev r
  | _ => l
  end.

(** [[&str]::join(sep)] *)
Fixpoint join (sep : bytes) (l : list bytes) : bytes :=
  match l with
  | [] => []
  | [x] => x
  | x :: r => x ++ sep ++ join sep r
  end.

(** The characters of a string, each as its byte sequence ([str::chars]). *)
Fixpoint chars (s : bytes) : list bytes :=
  match s with
  | [] => []
  | c :: r =>
      match chars r with
      | (d :: w) :: ws => if is_cont d then (c :: d :: w) :: ws else [c] :: (d :: w) :: ws
      | _ => [[c]]
      end
  end.

Definition unchars (l : list bytes) : bytes := List.concat l.

Definition is_digit (c : ascii) : bool :=
  let n := N_of_ascii c in ((48 <=? n) && (n <=? 57))%N.
Definition is_upper (c : ascii) : bool :=
  let n := N_of_ascii c in ((65 <=? n) && (n <=? 90))%N.
Definition is_lower (c : ascii) : bool :=
  let n := N_of_ascii c in ((97 <=? n) && (n <=? 122))%N.
Definition is_ascii_alnum (c : ascii) : bool := is_digit c || is_upper c || is_lower c.
Definition is_ascii (c : ascii) : bool := (N_of_ascii c <? 128)%N.

(** [char::is_ascii_punctuation] *)
Definition is_punct (c : ascii) : bool :=
  let n := N_of_ascii c in
  (((33 <=? n) && (n <=? 47)) || ((58 <=? n) && (n <=? 64))
   || ((91 <=? n) && (n <=? 96)) || ((123 <=? n) && (n <=? 126)))%N.

(** [char::is_alphanumeric] for the characters U+0000..=U+00FF; the scanner
    applies it to a single byte cast to [char] ([byte as char]), so this is all
    it ever sees. *)
Definition is_alnum_latin1 (c : ascii) : bool :=
  is_ascii_alnum c ||
  (let n := N_of_ascii c in
   ((n =? 170) || (n =? 178) || (n =? 179) || (n =? 181) || (n =? 185) || (n =? 186)
    || ((188 <=? n) && (n <=? 190))
    || ((192 <=? n) && (n <=? 214)) || ((216 <=? n) && (n <=? 246)) || (248 <=? n))%N).

(** [char::is_whitespace] (the Unicode [White_Space] characters) on one
    character given as its UTF-8 bytes. *)
Definition is_ws (ch : bytes) : bool :=
  match map N_of_ascii ch with
  | [b] => ((b =? 32) || ((9 <=? b) && (b <=? 13)))%N
  | [194; b]%N => ((b =? 133) || (b =? 160))%N
  | [225; 154; 128]%N => true
  | [226; 128; b]%N =>
      (((128 <=? b) && (b <=? 138)) || (b =? 168) || (b =? 169) || (b =? 175))%N
  | [226; 129; 159]%N => true
  | [227; 128; 128]%N => true
  | _ => false
  end.

Fixpoint drop_while {A} (p : A -> bool) (l : list A) : list A :=
  match l with
  | [] => []
  | x :: r => if p x then drop_while p r else l
  end.

(** [str::trim] *)
Definition trim (s : bytes) : bytes :=
  unchars (rev (drop_while is_ws (rev (drop_while is_ws (chars s))))).

(** [str::split_whitespace().collect()] *)
Fixpoint words_aux (l : list bytes) (cur : bytes) : list bytes :=
  match l with
  | [] => match cur with [] => [] | _ => [cur] end
  | ch :: r =>
      if is_ws ch
      then match cur with [] => words_aux r [] | _ => cur :: words_aux r [] end
      else words_aux r (cur ++ ch)
  end.
Definition split_whitespace (s : bytes) : list bytes := words_aux (chars s) [].

(** [str::replace(from, "")] for a non-empty [from], non-overlapping, left to right *)
Fixpoint remove_all_fuel (fuel : nat) (from s : bytes) : bytes :=
  match fuel with
  | O => s
  | S f =>
      match s with
      | [] => []
      | c :: r =>
          if starts_with from s
          then remove_all_fuel f from (skipn (List.length from) s)
          else c :: remove_all_fuel f from r
      end
  end.
Definition remove_all (from s : bytes) : bytes :=
  remove_all_fuel (S (List.length s)) from s.

(** decimal rendering of a [usize] ([format!("{}", n)]) *)
Fixpoint dec_fuel (fuel n : nat) : bytes :=
  match fuel with
  | O => []
  | S f =>
      if n <? 10 then [chr (48 + n)]
      else dec_fuel f (n / 10) ++ [chr (48 + n mod 10)]
  end.
Definition dec (n : nat) : bytes := dec_fuel (S n) n.

(** value of a string of ASCII digits *)
Fixpoint digits_val (acc : N) (s : bytes) : option N :=
  match s with
  | [] => Some acc
  | c :: r => if is_digit c then digits_val (acc * 10 + (N_of_ascii c - 48))%N r else None
  end.

(** [str::parse::<usize>]: an optional ['+'] then at least one digit, and the
    value must fit in 64 bits. *)
Definition parse_usize (s : bytes) : option N :=
  let body := match s with c :: r => if Ascii.eqb c "+"%char then r else s | [] => s end in
  match body with
  | [] => None
  | _ => match digits_val 0 body with
         | Some n => if (n <? 2 ^ 64)%N then Some n else None
         | None => None
         end
  end.

(** [str::parse::<i8>] *)
Definition parse_i8 (s : bytes) : option Z :=
  match s with
  | [] => None
  | c :: r =>
      let neg := Ascii.eqb c "-"%char in
      let body := if neg || Ascii.eqb c "+"%char then r else s in
      match body with
      | [] => None
      | _ => match digits_val 0 body with
             | Some n =>
                 let z := if neg then (- Z.of_N n)%Z else Z.of_N n in
                 if ((-128 <=? z) && (z <=? 127))%Z then Some z else None
             | None => None
             end
      end
  end.

(** ** Maps
    A Rust [HashMap<String, V>] is modelled as an association list without
    duplicate keys; [insert] replaces in place.  The iteration order of a
    [HashMap] is arbitrary; see the hash-order theorems. *)
Section Maps.
  Context {V : Type}.
  Fixpoint mget (k : bytes) (m : list (bytes * V)) : option V :=
    match m with
    | [] => None
    | (k', v) :: r => if beqb k k' then Some v else mget k r
    end.
  Fixpoint minsert (k : bytes) (v : V) (m : list (bytes * V)) : list (bytes * V) :=
    match m with
    | [] => [(k, v)]
    | (k', v') :: r => if beqb k k' then (k, v) :: r else (k', v') :: minsert k v r
    end.
  Definition mhas (k : bytes) (m : list (bytes * V)) : bool :=
    match mget k m with Some _ => true | None => false end.
End Maps.

(** [Vec::pop] / [last] on a stack kept in vector order *)
Definition last_opt {A} (l : list A) : option A :=
  match rev l with [] => None | x :: _ => Some x end.
Definition pop_last {A} (l : list A) : option (list A * A) :=
  match rev l with [] => None | x :: r => Some (rev r, x) end.
Definition set_last {A} (l : list A) (x : A) : list A :=
  match rev l with [] => [] | _ :: r => rev r ++ [x] end.
