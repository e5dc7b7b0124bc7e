(** * World: what the code takes from its environment

    Everything the modelled code asks of the operating system, of the build
    profile and of the Unicode tables is a field of one record, passed as an
    argument; theorems quantify over it. *)
From Verif Require Import Base.

Record world := mkWorld {
  (** [Path::canonicalize] (parser.rs 1526, 1531): [None] is an I/O error *)
  w_canon : bytes -> option bytes;
  (** [fs::read_to_string] (parser.rs 1543): [None] is an I/O error *)
  w_read : bytes -> option bytes;
  (** integer overflow checks on (debug profile, panic) or off (release
      profile, wrap around) *)
  w_checked : bool;
  (** [char::is_alphanumeric] on a non-ASCII character (nodes.rs 60) *)
  w_alnum : bytes -> bool;
  (** the regex class [\w] on a non-ASCII character (metadata.rs 12) *)
  w_word : bytes -> bool;
  (** [str::to_lowercase] on a string with non-ASCII characters (nodes.rs 62) *)
  w_lower : bytes -> bytes;
  (** [str::parse::<f64>] then [as i64], used by Tera's [int] filter on a string
      with a dot (templates/htmlbook/tables.html.tera 4) *)
  w_float : bytes -> option Z }.

(** A world without files, used by the examples. *)
Definition world0 : world :=
  mkWorld (fun _ => None) (fun _ => None) true (fun _ => true) (fun _ => true) (fun s => s)
          (fun _ => None).

(** [as i8] / wrapping [i8] arithmetic *)
Definition wrap_i8 (z : Z) : Z := ((z + 128) mod 256 - 128)%Z.
Definition fits_i8 (z : Z) : bool := ((-128 <=? z) && (z <=? 127))%Z.
(** [a + b] on [i8] *)
Definition add_i8 {E} (w : world) (a b : Z) : res E Z :=
  if fits_i8 (a + b) then Ok (a + b)%Z
  else if w_checked w then Panic else Ok (wrap_i8 (a + b)).

(** [str::parse::<i32>] *)
Definition parse_i32 (s : bytes) : option Z :=
  match s with
  | [] => None
  | c :: r =>
      let neg := Ascii.eqb c "-"%char in
      let body := if neg || Ascii.eqb c "+"%char then r else s in
      match body with
      | [] => None
      | _ => match digits_val 0 body with
             | Some n =>
                 let z := if neg then (- Z.of_N n)%Z else Z.of_N n in
                 if ((-2147483648 <=? z) && (z <=? 2147483647))%Z then Some z else None
             | None => None
             end
      end
  end.

(** [end += 1] on [i32] *)
Definition succ_i32 {E} (w : world) (z : Z) : res E Z :=
  if (z =? 2147483647)%Z then (if w_checked w then Panic else Ok (-2147483648)%Z)
  else Ok (z + 1)%Z.

Definition is_single_byte (ch : bytes) : option ascii :=
  match ch with [c] => if is_ascii c then Some c else None | _ => None end.

(** [char::is_alphanumeric] *)
Definition char_alnum (w : world) (ch : bytes) : bool :=
  match is_single_byte ch with Some c => is_ascii_alnum c | None => w_alnum w ch end.
(** regex [\w] *)
Definition char_word (w : world) (ch : bytes) : bool :=
  match is_single_byte ch with
  | Some c => is_ascii_alnum c || Ascii.eqb c "_"%char
  | None => w_word w ch
  end.

Definition lower_ascii (c : ascii) : ascii :=
  if is_upper c then ascii_of_N (N_of_ascii c + 32) else c.
(** [str::to_lowercase] *)
Definition to_lowercase (w : world) (s : bytes) : bytes :=
  if forallb is_ascii s then map lower_ascii s else w_lower w s.

(** ** Paths (std::path, lexical part)
    [Path::join]/[PathBuf::push]: an absolute argument replaces the path. *)
Definition path_join (a b : bytes) : bytes :=
  match b with
  | c :: _ =>
      if Ascii.eqb c "/"%char then b
      else match last_opt a with
           | None => b
           | Some d => if Ascii.eqb d "/"%char then a ++ b else a ++ bs "/" ++ b
           end
  | [] =>
      match last_opt a with
      | None => []
      | Some d => if Ascii.eqb d "/"%char then a else a ++ bs "/"
      end
  end.

Definition is_slash (c : ascii) : bool := Ascii.eqb c "/"%char.
(** [Path::parent], up to the interior normalisation of ["."] components that
    std performs (the result is only ever joined and canonicalised). *)
Definition path_parent (p : bytes) : option bytes :=
  let r := drop_while is_slash (rev p) in
  match r with
  | [] => None
  | _ =>
      let d := drop_while (fun c => negb (is_slash c)) r in
      match d with
      | [] => Some []
      | _ => match drop_while is_slash d with
             | [] => Some (bs "/")
             | d' => Some (rev d')
             end
      end
  end.
