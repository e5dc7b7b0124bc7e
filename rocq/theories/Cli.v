(** * Cli: /repo/src/bin/asciidocr/main.rs and cli.rs

    One run of the command as the list of its visible effects and its outcome.
    The argument parser [clap] is not modelled: a run starts from the parsed
    arguments.  The JSON text is represented by the JSON value, the docx file by
    the value of Docx.v.  Only the texts on standard output are recorded. *)
From Verif Require Import Base World Location Token Scanner Meta Inline Block Asg Parser Json Html Docx.
Local Open Scope char_scope.
Local Open Scope nat_scope.

Inductive backend := BHtmlbook | BJson | BDocx.
(** cli.rs 7-31 [struct Cli] *)
Record cli := mkCli {
  c_file : bytes; c_output : option bytes; c_backend : backend;
  c_count : bool; c_unresolved : bool }.

(** ** [PathBuf::set_extension] (std)
    the last component that is neither empty nor "."; the text before it *)
Definition skip_component (s : bytes) : bool := beqb s [] || beqb s (bs ".").
Definition last_component (p : bytes) : option (bytes * bytes) :=
  match drop_while skip_component (rev (split_on is_slash p)) with
  | [] => None
  | name :: before => Some (List.concat (map (fun s => s ++ ["/"]) (rev before)), name)
  end.
(** [Path::file_name] (none when the last component is ".."), [Path::file_stem] *)
Definition file_name (p : bytes) : option (bytes * bytes) :=
  match last_component p with
  | Some (before, name) => if beqb name (bs "..") then None else Some (before, name)
  | None => None
  end.
Definition is_dot (c : ascii) : bool := Ascii.eqb c ".".
(** the text before the last dot, unless there is none or it is the first byte *)
Definition file_stem (name : bytes) : bytes :=
  match drop_while (fun c => negb (is_dot c)) (rev name) with
  | _ :: (c :: r) => rev (c :: r)
  | _ => name
  end.
Definition set_extension (p ext : bytes) : bytes :=
  match file_name p with
  | Some (before, name) => before ++ file_stem name ++ bs "." ++ ext
  | None => p
  end.

(** cli.rs 46-73 [read_output]; [None] is standard output *)
Definition backend_ext (b : backend) : bytes :=
  match b with BHtmlbook => bs "html" | BJson => bs "json" | BDocx => bs "docx" end.
Definition read_output (c : cli) : option bytes :=
  match c_output c with
  | Some o => if beqb o (bs "-") then None else Some o
  | None =>
      if beqb (c_file c) (bs "-") then None
      else Some (set_extension (c_file c) (backend_ext (c_backend c)))
  end.

(** what a run does *)
Inductive content := CHtml (s : bytes) | CJsonText (s : bytes) | CDocxFile (d : docx).
Inductive event :=
| EvStdout (c : content)                (* println of the rendering *)
| EvCount (n : nat) (file : bytes)      (* println of the word count *)
| EvCreate (path : bytes)               (* File::create: truncates *)
| EvWrite (path : bytes) (c : content). (* fs::write, or the packed docx *)

(** the part of the environment only the command uses: standard input, the
    current directory, whether a path can be written, and images *)
Record cli_env := mkEnv {
  e_stdin : option bytes;
  e_cwd : bytes;
  e_writable : bytes -> bool;
  e_img : bytes -> dres unit }.

(** cli.rs 33-44 [read_input] *)
Definition read_input (w : world) (e : cli_env) (c : cli) : result bytes :=
  if beqb (c_file c) (bs "-") then
    match e_stdin e with Some s => Ok s | None => Panic end
  else match w_read w (c_file c) with Some s => Ok s | None => Exit end.

(** parser.rs 100-104: the directory includes are resolved against *)
Definition origin_directory (e : cli_env) (file : bytes) : bytes :=
  match path_parent file with Some p => p | None => e_cwd e end.

(** main.rs 75-80 [render_string] *)
Definition render_string (e : cli_env) (ct : content) (out : option bytes)
  : list event * result unit :=
  match out with
  | Some p => if e_writable e p then ([EvWrite p ct], Ok tt) else ([], Panic)
  | None => ([EvStdout ct], Ok tt)
  end.

Definition lift {A B} (r : result A) (f : A -> list event * result B) : list event * result B :=
  match r with
  | Ok a => f a
  | Err x => ([], Err x)
  | Panic => ([], Panic)
  | Hang => ([], Hang)
  | Exit => ([], Exit)
  end.

(** main.rs 33-73 [run]; the fuel bounds the depth of nested includes *)
Definition run (w : world) (fuel : nat) (e : cli_env) (c : cli) : list event * result unit :=
  lift (read_input w e c) (fun src =>
  lift (parse w fuel (origin_directory e (c_file c)) (negb (c_unresolved c)) src) (fun g =>
  let counted := if c_count c then [EvCount (word_count g) (c_file c)] else [] in
  let (ev, r) :=
    match c_backend c with
    | BHtmlbook =>
        lift (render_htmlbook w g) (fun h => render_string e (CHtml h) (read_output c))
    | BJson => render_string e (CJsonText (render_json g)) (read_output c)
    | BDocx =>
        if c_unresolved c then ([], Exit)
        else match read_output c with
             | None => ([], Exit)
             | Some p =>
                 if negb (e_writable e p) then ([], Panic)
                 else match render_docx (e_img e) g with
                      | Ok d => ([EvCreate p; EvWrite p (CDocxFile d)], Ok tt)
                      | _ => ([EvCreate p], Panic)
                      end
             end
    end in
  (counted ++ ev, r))).
