(** * Specification of the command: C37, C46, C47 *)
From Verif Require Import Base World Location Token Meta Inline Block Asg Cli.
Local Open Scope char_scope.
Local Open Scope nat_scope.

(** a path of a file: a directory part and a name *)
Definition file_path (p dir name : bytes) : Prop :=
  p = dir ++ name /\ (dir = [] \/ exists d, dir = d ++ ["/"]) /\ name <> [] /\ ~ In "/" name
  /\ name <> bs "." /\ name <> bs "..".
Definition extension (b : backend) : bytes :=
  match b with BHtmlbook => bs ".html" | BJson => bs ".json" | BDocx => bs ".docx" end.
(** asked for standard output *)
Definition to_stdout (c : cli) : Prop := c_output c = Some (bs "-") \/ c_output c = None /\ c_file c = bs "-".
(** the files a run creates, truncates or writes *)
Definition touched (ev : list event) : list bytes :=
  flat_map (fun e => match e with EvCreate p | EvWrite p _ => [p] | _ => [] end) ev.
Definition printed (ev : list event) : list content :=
  flat_map (fun e => match e with EvStdout ct => [ct] | _ => [] end) ev.
Definition written (ev : list event) : list (bytes * content) :=
  flat_map (fun e => match e with EvWrite p ct => [(p, ct)] | _ => [] end) ev.
Definition counted (ev : list event) : list (nat * bytes) :=
  flat_map (fun e => match e with EvCount n f => [(n, f)] | _ => [] end) ev.

(** a name without its extension: what stands before its last dot, unless the name has no dot
    or only starts with one *)
Definition stem_of (name stem : bytes) : Prop :=
  stem = name /\ ~ In "." (tl name) \/ exists e, name = stem ++ "." :: e /\ stem <> [] /\ ~ In "." e.
(** where the rendering goes: [None] is standard output *)
Definition destination (c : cli) (o : option bytes) : Prop :=
  match c_output c with
  | Some p => p = bs "-" /\ o = None \/ p <> bs "-" /\ o = Some p
  | None => c_file c = bs "-" /\ o = None
      \/ c_file c <> bs "-" /\ exists p, o = Some p /\ forall dir name, file_path (c_file c) dir name ->
           exists stem, stem_of name stem /\ p = dir ++ stem ++ extension (c_backend c)
  end.
(** the text a run starts from *)
Definition source_text (w : world) (e : cli_env) (c : cli) (src : bytes) : Prop :=
  c_file c = bs "-" /\ e_stdin e = Some src \/ c_file c <> bs "-" /\ w_read w (c_file c) = Some src.
(** the directory a file is in *)
Definition folder (e : cli_env) (file : bytes) : bytes := match path_parent file with Some p => p | None => e_cwd e end.
(** the directory of a file *)
Definition slashes (s : bytes) : Prop := s <> [] /\ Forall (eq "/") s.
Definition beside (f base : bytes) : Prop := forall dir name, file_path f dir name ->
  dir = [] /\ base = [] \/ slashes dir /\ base = bs "/"
  \/ exists sl d c, slashes sl /\ c <> "/" /\ base = d ++ [c] /\ dir = base ++ sl.
