(** * Specification: what an attribute list stands for *)
From Verif Require Import Base World Location Token Meta SpecMeta.
Local Open Scope char_scope.
Local Open Scope nat_scope.

(** an attribute with its value in quotes, or a text without quotes *)
Inductive item := Quoted (name value : bytes) | Bare (text : bytes).
Definition item_text (i : item) : bytes := match i with Quoted n v => pair_text (n, v) | Bare x => x end.
Definition list_text (l : list item) : bytes := comma_list (map item_text l).
Definition item_ok (i : item) : Prop :=
  match i with
  | Quoted n v => name_of n /\ value_of v
  | Bare x => Forall (fun c => c <> "," /\ c <> DQ /\ c <> NL) x /\ match x with c :: _ => is_cont c = false | [] => True end
  end.
Definition pairs (l : list item) : list (bytes * bytes) :=
  List.concat (map (fun i => match i with Quoted n v => [(n, v)] | Bare _ => [] end) l).
Definition items_ok (l : list item) : Prop := Forall item_ok l /\ apart (pairs l).

(** the order in which they count: those in quotes first, and then all the fields, where
    those in quotes have left empty fields *)
Definition order (l : list item) : list item :=
  map (fun p => Quoted (fst p) (snd p)) (pairs l) ++ map (fun i => match i with Quoted _ _ => Bare [] | b => b end) l.

(** ** What an item stands for: its place is [n]; the list is that of a [style] *)
(** a name and a value, at the first equals sign or bar *)
Fixpoint parted (x : bytes) : option (bytes * bytes) :=
  match x with
  | [] => None
  | c :: r => if Ascii.eqb c "=" || Ascii.eqb c "|" then Some ([], r)
              else match parted r with Some (k, v) => Some (c :: k, v) | None => None end
  end.
Definition named (i : item) : option (bytes * bytes) := match i with Quoted n v => Some (n, v) | Bare x => parted x end.
Definition is_style (x : bytes) : bool :=
  match x with
  | a :: b :: _ => beqb [a; b] (bs "so") || beqb [a; b] (bs "qu") || beqb [a; b] (bs "ve")
  | _ => false
  end.
Definition style_of (x : bytes) : option attribute_type :=
  if beqb x (bs "source") then Some ASource else if beqb x (bs "quote") then Some AQuote else if beqb x (bs "verse") then Some AVerse else None.
(** the style, if the first item is one *)
Definition style_after (style : option attribute_type) (l : list item) : option attribute_type :=
  match l with
  | Bare x :: _ => match parted x with None => if is_style x then style_of x else style | Some _ => style end
  | _ => style
  end.
(** the name and value of an item that has no name itself *)
Definition by_place (style : option attribute_type) (n : nat) (x : bytes) : option (bytes * bytes) :=
  match style with
  | Some ASource => match n with 1 => Some (bs "language", trim x) | _ => None end
  | Some AQuote | Some AVerse => match n with 1 => Some (bs "attribution", trim x) | 2 => Some (bs "citation", trim x) | _ => None end
  | Some ALines => None
  | Some ARole | None => Some (bs "positional_" ++ dec (S n), x)
  end.
Definition given (style : option attribute_type) (n : nat) (i : item) : option (bytes * bytes) :=
  match named i with
  | Some (k, v) => if beqb k (bs "role") then None else Some (k, v)
  | None => match i with
            | Quoted _ _ | Bare [] => None
            | Bare x => if (n =? 0) && is_style x then None else by_place style n x
            end
  end.
Definition roles_in (i : item) : list bytes :=
  match named i with
  | Some (k, v) => if beqb k (bs "role") then split_on (fun c => Ascii.eqb c SP) v else []
  | None => []
  end.
(** what makes the program panic: a fourth place in a quote or verse, or a first item whose
    third byte is inside a character *)
Definition refused (style : option attribute_type) (n : nat) (i : item) : bool :=
  match named i with
  | Some _ => false
  | None =>
      match i with
      | Quoted _ _ | Bare [] => false
      | Bare x =>
          (n =? 0) && match x with _ :: _ :: c :: _ => is_cont c | _ => false end
          || negb ((n =? 0) && is_style x)
             && match style with
                | Some AQuote | Some AVerse => negb ((n =? 1) || (n =? 2))
                | Some ALines => true
                | _ => false
                end
      end
  end.

(** ** What a list stands for *)
Definition numbered {A} (l : list A) : list (nat * A) := combine (seq 0 (List.length l)) l.
Section Meant.
  Variables (style : option attribute_type) (l : list item).
  Definition style_at (n : nat) : option attribute_type := match n with 0 => style | _ => style_after style l end.
  Definition givens : list (bytes * bytes) :=
    List.concat (map (fun x => match given (style_at (fst x)) (fst x) (snd x) with Some kv => [kv] | None => [] end) (numbered l)).
  Definition list_refused : bool := existsb (fun x => refused (style_at (fst x)) (fst x) (snd x)) (numbered l).
  (** the last value of a name counts *)
  Definition last_given (k : bytes) : option bytes := option_map snd (find (fun kv => beqb k (fst kv)) (rev givens)).
  Definition adds (m m' : metadata) : Prop :=
    m_type m' = style_after style l /\ m_roles m' = m_roles m ++ List.concat (map roles_in l)
    /\ m_options m' = m_options m /\ m_inline m' = m_inline m /\ m_loc m' = m_loc m
    /\ forall k, mget k (m_attrs m') = match last_given k with Some v => Some v | None => mget k (m_attrs m) end.
End Meant.
(** the attributes [l] written in this order, added to [m] *)
Definition attributes (m : metadata) (l : list item) (r : result metadata) : Prop :=
  if list_refused (m_type m) (order l) then r = Panic
  else exists m', r = Ok m' /\ adds (m_type m) (order l) m m'.

(** the directives that carry a list: [name target [ list ]] *)
Definition directive (t : token_type) : bytes :=
  match t with
  | TInclude => bs "include::"
  | TBlockImageMacro => bs "image::"
  | TInlineImageMacro => bs "image:"
  | _ => []
  end.
(** a directive gives its target and, unless nothing is between the brackets, its attributes *)
Definition read_as (target : bytes) (l : list item) (r : result (bytes * option metadata)) : Prop :=
  match list_text l with
  | [] => r = Ok (target, None)
  | _ => if list_refused None (order l) then r = Panic
         else exists m, r = Ok (target, Some m) /\ adds None (order l) (mkMeta [] [] [] true None []) m
  end.

(** ** C28: the texts without quotes that are refused *)
(** a field that is neither empty nor has a name *)
Definition nameless (x : bytes) : bool := match x with [] => false | _ => match parted x with None => true | Some _ => false end end.
(** the first field is without a name and its third byte is inside a character, or a fourth
    field of a quote or verse, or a later one, is without a name *)
Definition overdone (s : bytes) : bool :=
  match fields s with
  | x :: r => nameless x && match x with _ :: _ :: c :: _ => is_cont c | _ => false end
              || (beqb x (bs "quote") || beqb x (bs "verse")) && existsb nameless (skipn 2 r)
  | [] => false
  end.
