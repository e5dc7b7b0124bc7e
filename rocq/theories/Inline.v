(** * Inline: /repo/src/graph/inlines.rs *)
From Verif Require Import Base World Location Token Meta.
Local Open Scope char_scope.
Local Open Scope nat_scope.

(** inlines.rs 495-510, 628-632, 731-735 *)
Inductive span_variant := SStrong | SEmphasis | SCode | SMark | SSuperscript | SSubscript | SFootnote.
Inductive span_form := FConstrained | FUnconstrained.
Inductive ref_variant := RLink | RXref | RImage.
(** [InlineLiteralName::Raw] is never constructed *)
Inductive literal_name := LText | LCharref.
Scheme Boolean Equality for span_variant.
Scheme Boolean Equality for span_form.
Scheme Boolean Equality for ref_variant.
Scheme Boolean Equality for literal_name.

(** inlines.rs 20-25 [enum Inline], 261-274 [InlineSpan], 513-523 [InlineRef],
    635-641 [InlineLiteral], 738-743 [LineBreak].  The constant fields [name] and
    [node_type] are left out; the literal of a footnote number, whose [node_type]
    is "inline" instead of "string" (line 460), is the one case where
    [node_type] is not determined by the constructor: [n_inline] records it. *)
Inductive inline :=
| ISpan (v : span_variant) (f : span_form) (l : list inline) (m : option metadata)
        (loc : list location) (open : bool)
| IRef (v : ref_variant) (target : bytes) (l : list inline) (m : option metadata)
       (loc : list location)
| ILit (n : literal_name) (n_inline : bool) (value : bytes) (loc : list location)
| IBreak (loc : list location).

(** inlines.rs 38-52 [PartialEq for Inline] *)
Definition inline_eqb (a b : inline) : bool :=
  match a, b with
  | ISpan v f _ _ _ _, ISpan v' f' _ _ _ _ => span_variant_beq v v' && span_form_beq f f'
  | IRef _ _ _ _ _, IRef _ _ _ _ _ => true
  | ILit _ _ _ _, ILit _ _ _ _ => true
  | IBreak _, IBreak _ => true
  | _, _ => false
  end.

(** inlines.rs 55-61 [push_inline] *)
Definition inline_push (i c : inline) : result inline :=
  match i with
  | ISpan v f l m loc o => Ok (ISpan v f (l ++ [c]) m loc o)
  | IRef v t l m loc => Ok (IRef v t (l ++ [c]) m loc)
  | _ => Panic
  end.

(** inlines.rs 62-69 [locations] *)
Definition inline_locs (i : inline) : list location :=
  match i with
  | ISpan _ _ _ _ loc _ => loc
  | IRef _ _ _ _ loc => loc
  | ILit _ _ _ loc => loc
  | IBreak loc => loc
  end.

(** inlines.rs 71-86 [reconcile_locations] *)
Definition inline_reconcile (i : inline) (o : list location) : inline :=
  match i with
  | ISpan v f l m loc op => ISpan v f l m (reconcile loc o) op
  | IRef v t l m loc => IRef v t l m (reconcile loc o)
  | ILit n k v loc => ILit n k v (reconcile loc o)
  | IBreak loc => IBreak (reconcile loc o)
  end.

(** inlines.rs 88-127 *)
Definition is_literal (i : inline) : bool := match i with ILit _ _ _ _ => true | _ => false end.
Definition is_macro (i : inline) : bool :=
  match i with
  | IRef v _ _ _ _ => ref_variant_beq v RLink
  | ISpan v _ _ _ _ _ => span_variant_beq v SFootnote
  | _ => false
  end.
Definition is_open (i : inline) : bool := match i with ISpan _ _ _ _ _ o => o | _ => false end.
Definition is_newline (i : inline) : bool :=
  match i with ILit _ _ v _ => beqb v [NL] | _ => false end.
Definition is_footnote (i : inline) : bool :=
  match i with ISpan v _ _ _ _ _ => span_variant_beq v SFootnote | _ => false end.

(** inlines.rs 129-148 [extract_values_to_string] *)
Fixpoint inline_text (i : inline) : bytes :=
  match i with
  | ILit _ _ v _ => v
  | ISpan _ _ l _ _ _ => List.concat (map inline_text l)
  | IRef _ _ l _ _ => List.concat (map inline_text l)
  | IBreak _ => []
  end.
Definition inlines_text (l : list inline) : bytes := List.concat (map inline_text l).

(** inlines.rs 164-186 [produce_literal_from_self]; the footnote and non-span
    cases are [todo!()] *)
Definition span_marker (v : span_variant) : option ascii :=
  match v with
  | SStrong => Some "*" | SEmphasis => Some "_" | SMark => Some "#" | SCode => Some "`"
  | SSuperscript => Some "^" | SSubscript => Some "~" | SFootnote => None
  end.
Definition produce_literal (i : inline) : result bytes :=
  match i with
  | ISpan v f _ _ _ _ =>
      match span_marker v with
      | None => Panic
      | Some c => Ok (match f with FUnconstrained => [c; c] | FConstrained => [c] end)
      end
  | _ => Panic
  end.

(** inlines.rs 703-708 [prepend_to_value] *)
Definition prepend_literal (i : inline) (value : bytes) (locs : option (list location))
  : result inline :=
  match i with
  | ILit n k v loc =>
      Ok (ILit n k (value ++ v) (reconcile loc (match locs with Some l => l | None => loc end)))
  | _ => Panic (* todo!() at the call sites *)
  end.

(** inlines.rs 419-443 [extract_span_inlines] with 157-162
    [extract_child_inlines]: the children of a span, its open (dangling) child
    spans replaced by their opening marker and their own children *)
Fixpoint extract_children (i : inline) : result (list inline) :=
  match i with
  | ISpan _ _ l _ _ _ =>
      (fix go (l : list inline) : result (list inline) :=
         match l with
         | [] => Ok []
         | x :: r =>
             let* hd :=
               if is_open x then
                 let* lit := produce_literal x in
                 let* kids := extract_children x in
                 match kids with
                 | k :: ks => let* k' := prepend_literal k lit None in Ok (k' :: ks)
                 | [] => Panic (* todo!() *)
                 end
               else Ok [x] in
             let* tl := go r in
             Ok (hd ++ tl)
         end) l
  | _ => Panic (* todo!() *)
  end.

(** inlines.rs 220-231 [consolidate_locations_from_token] *)
Definition consolidate_from_token (i : inline) (t : token) : result inline :=
  match i with
  | ISpan v f l m loc o => Ok (ISpan v f l m (reconcile loc (token_locations t)) o)
  | IRef v tg l m loc => Ok (IRef v tg l m (reconcile loc (token_locations t)))
  | _ => Panic
  end.

(** inlines.rs 233-245 [add_metadata], [close] *)
Definition inline_add_metadata (i : inline) (m : metadata) : result inline :=
  match i with
  | ISpan v f l _ loc o => Ok (ISpan v f l (Some m) loc o)
  | _ => Panic
  end.
Definition inline_close (i : inline) : result inline :=
  match i with
  | ISpan v f l m loc _ => Ok (ISpan v f l m loc false)
  | _ => Panic
  end.

(** inlines.rs 247-257 [attempt_xref_standardization] *)
Definition xref_standardize (ids : list (bytes * list inline)) (i : inline) : inline :=
  match i with
  | IRef RXref t l m loc =>
      match mget t ids with
      | Some txt => IRef RXref t txt m loc
      | None => i
      end
  | _ => i
  end.

(** inlines.rs 653-668 literal constructors *)
Definition lit_text (t : token) : inline := ILit LText false (token_text t) (token_locations t).
Definition lit_charref (t : token) : inline := ILit LCharref false (token_text t) (token_locations t).
Definition lit_pass (t : token) : inline := ILit LText false (lexeme t) (token_locations t).

(** inlines.rs 277-383 [InlineSpan::new], [inline_span_from_token] *)
Definition new_span (v : span_variant) (f : span_form) (loc : list location) : inline :=
  ISpan v f [] None loc true.
Definition span_from_token (t : token) : result inline :=
  let loc := token_locations t in
  match ttype t with
  | TStrong => Ok (new_span SStrong FConstrained loc)
  | TEmphasis => Ok (new_span SEmphasis FConstrained loc)
  | TMonospace | TLiteral => Ok (new_span SCode FConstrained loc)
  | TMark => Ok (new_span SMark FConstrained loc)
  | TSuperscript => Ok (new_span SSuperscript FConstrained loc)
  | TSubscript => Ok (new_span SSubscript FConstrained loc)
  | TUnconstrainedStrong => Ok (new_span SStrong FUnconstrained loc)
  | TUnconstrainedEmphasis => Ok (new_span SEmphasis FUnconstrained loc)
  | TUnconstrainedMonospace | TUnconstrainedLiteral => Ok (new_span SCode FUnconstrained loc)
  | TUnconstrainedMark => Ok (new_span SMark FUnconstrained loc)
  | TFootnoteMacro => Ok (new_span SFootnote FConstrained loc)
  | TCodeCallout =>
      let* body := inner (token_text t) 1 1 in
      Ok (ISpan SStrong FConstrained
                [ILit LText false (bs "(" ++ body ++ bs ")") loc]
                (Some (meta_with_role (bs "conum"))) loc true)
  | _ => Panic
  end.

(** inlines.rs 681-687 [InlineLiteral::text_from_token] and 690-696, 698-701 *)
Definition lit_append (i : inline) (txt : bytes) (locs : list location) : inline :=
  match i with
  | ILit n k v loc => ILit n k (v ++ txt) (reconcile loc locs)
  | _ => i
  end.

(** replace the last element of a list by its image under a partial update *)
Section UpdLast.
  Context {A E : Type} (f : A -> res E A).
  Fixpoint upd_last (l : list A) : res E (list A) :=
    match l with
    | [] => Ok []
    | x :: r =>
        match r with
        | [] => let* y := f x in Ok [y]
        | _ => let* r' := upd_last r in Ok (x :: r')
        end
    end.
End UpdLast.
Section UpdLast'.
  Context {A : Type} (f : A -> A).
  Fixpoint upd_last' (l : list A) : list A :=
    match l with
    | [] => []
    | x :: r => match r with [] => [f x] | _ => x :: upd_last' r end
    end.
End UpdLast'.

(** inlines.rs 385-404 [InlineSpan::add_inline]; on anything but a span the
    method does not exist (identity here) *)
Fixpoint span_add (s : inline) (i : inline) : inline :=
  match s with
  | ISpan v f l m loc o =>
      let loc' := reconcile loc (inline_locs i) in
      match last_opt l with
      | Some (ISpan _ _ _ _ _ true) => ISpan v f (upd_last' (fun x => span_add x i) l) m loc' o
      | Some (ISpan _ _ _ _ _ false) => ISpan v f (l ++ [i]) m loc' o
      | Some (ILit _ _ _ _) =>
          match i with
          | ILit _ _ v' loc'' => ISpan v f (upd_last' (fun x => lit_append x v' loc'') l) m loc' o
          | _ => ISpan v f (l ++ [i]) m loc' o
          end
      | _ => ISpan v f (l ++ [i]) m loc' o
      end
  | _ => s
  end.

(** inlines.rs 561-595 reference constructors.  [target.pop()] on a link macro
    token removes its last character, the '['. *)
Definition drop_last_char (s : bytes) : bytes := unchars (removelast (chars s)).
Definition new_xref (t : token) : result inline :=
  let* target := inner (token_text t) 2 2 in
  Ok (IRef RXref target [] None (token_locations t)).
Definition new_link_macro (t : token) : inline :=
  IRef RLink (drop_last_char (token_text t)) [] None (token_locations t).
Definition new_link (t : token) : inline := IRef RLink (token_text t) [] None (token_locations t).
Definition new_inline_image (target : bytes) (m : option metadata) (locs : list location) : inline :=
  IRef RImage target [] m locs.

(** inlines.rs 609-623 [InlineRef::text_from_token]: a new literal takes the
    lexeme in both modes, as written *)
Definition ref_text_from_token (i : inline) (t : token) (pass : bool) : result inline :=
  match i with
  | IRef v tg l m loc =>
      match last_opt l with
      | None => Ok (IRef v tg (l ++ [lit_pass t]) m loc)
      | Some (ISpan _ _ _ _ _ _) =>
          Ok (IRef v tg (upd_last' (fun x => span_add x (lit_pass t)) l) m loc)
      | Some (ILit _ _ _ _) =>
          Ok (IRef v tg (upd_last' (fun x => lit_append x (if pass then lexeme t else token_text t)
                                                     (token_locations t)) l) m loc)
      | Some _ => Panic
      end
  | _ => Panic
  end.

(** inlines.rs 538-559 [InlineRef::new_footnote_ref] *)
Definition new_footnote_ref (target : bytes) (id : option bytes) (numbering : inline)
           (loc : list location) : inline :=
  IRef RXref target [numbering] (option_map meta_inline_with_id id) loc.

(** inlines.rs 449-490 [deconstruct_footnote], 406-415 [InlineSpan::new_footnote_ref]:
    definition id, replacement span, contents of the definition *)
Definition deconstruct_footnote (l : list inline) (loc : list location) (count : nat)
           (document_id : bytes) : bytes * inline * list inline :=
  let def := document_id ++ bs "_footnotedef_" ++ dec count in
  let ref := document_id ++ bs "_footnoteref_" ++ dec count in
  let numbering := ILit LText true (dec count) loc in
  let fref := new_footnote_ref def (Some ref) numbering loc in
  let fdef := new_footnote_ref ref None numbering loc in
  (def,
   ISpan SSuperscript FConstrained [fref] (Some (meta_with_role (bs "footnote"))) loc true,
   fdef :: l).
