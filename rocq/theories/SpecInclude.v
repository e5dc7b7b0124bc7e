(** * Which files a document opens *)
From Verif Require Import Base World Location Token Scanner Meta Parser SpecPath.

Section Opens.
  Variable w : world.
  Variable origin src : bytes.
  (** [opens chain content]: following the include directives named by [chain] from the
      main document [src] leads to a file with this content; [reads chain t]: [t] is a
      token of such a file, or of the text of a table cell in it *)
  Inductive opens : list bytes -> bytes -> Prop :=
  | opens_main : opens [] src
  | opens_include chain t target m path content :
      reads chain t -> ttype t = TInclude ->
      target_and_attrs_from_token w t = Ok (target, m) ->
      w_canon w (located origin chain target) = Some path -> w_read w path = Some content ->
      opens (chain ++ [target]) content
  with reads : list bytes -> token -> Prop :=
  | reads_scan chain content t :
      opens chain content -> In t (fst (scan_stream content chain)) -> reads chain t
  | reads_cell chain t contents x :
      reads chain t -> ttype t = TTableCell ->
      slice (token_text t) 1 (List.length (token_text t)) = (Ok contents : result bytes) ->
      In x (fst (scan_stream contents [])) ->
      reads chain (update_token_loc_offsets_by x (tline t) (startcol t)).
End Opens.

(** a world with the given files, for examples *)
Definition disk (files : list (bytes * bytes)) : world :=
  mkWorld Some (fun p => mget p files) true (fun _ => true) (fun _ => true) (fun s => s) (fun _ => None).
