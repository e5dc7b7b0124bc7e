(** * Tera: the template engine behind /repo/src/backends/htmls.rs

    As much of Tera 1.20 (Cargo.toml: [tera = "1.20.0"]) as the five templates of
    /repo/templates/htmlbook use: reading a template (text, [{{ }}], [{% %}], [{# #}], white
    space control by [-]), expressions, [set], [if], [for], macros and imports, the filters
    [int], [join], [length], [nth] and the function [range].

    Simplifications: white space control is applied to the pieces of the source before
    blocks are built (Tera does it on the built tree, to the same effect); only white space
    that is ASCII is trimmed; what Tera would render for arrays, objects and truth values
    is not modelled (an error here); numbers are integers without bounds.
    An error is [Panic] (htmls.rs 28: [expect]). *)
From Verif Require Import Base World Location Token Meta Inline Block Asg Json Html.
Local Open Scope char_scope.
Local Open Scope nat_scope.

(** ** Reading the source *)
Inductive chunk :=
| CText (s : bytes)
| CVar (l r : bool) (s : bytes)    (* {{ s }}; white space before, after is trimmed *)
| CTag (l r : bool) (s : bytes)    (* {% s %} *)
| CNote (l r : bool).              (* {# #} *)

Definition blank (c : ascii) : bool := Ascii.eqb c " " || Ascii.eqb c NL || (nat_of_ascii c =? 9) || (nat_of_ascii c =? 13).
Definition trim_start (s : bytes) : bytes := drop_while blank s.
Definition trim_end (s : bytes) : bytes := rev (drop_while blank (rev s)).
Definition opener (c : ascii) : bool := Ascii.eqb c "{" || Ascii.eqb c "%" || Ascii.eqb c "#".
Definition closer (c : ascii) : ascii := if Ascii.eqb c "{" then "}" else c.
(** the text before the next opening of a tag *)
Fixpoint upto_open (s : bytes) : bytes * bytes :=
  match s with
  | "{" :: (c :: r) as s' => if opener c then ([], "{" :: s') else let (a, b) := upto_open s' in ("{" :: a, b)
  | c :: r => let (a, b) := upto_open r in (c :: a, b)
  | [] => ([], [])
  end.
(** what stands before [c] and a brace; not in quotes, unless the quotes do not count *)
Fixpoint upto_close (quotes : bool) (c : ascii) (q : option ascii) (s : bytes) : option (bytes * bytes) :=
  match s with
  | [] => None
  | x :: r =>
      let go q := match upto_close quotes c q r with Some (a, b) => Some (x :: a, b) | None => None end in
      match q with
      | Some y => go (if Ascii.eqb x y then None else q)
      | None =>
          if Ascii.eqb x c then match r with "}" :: r' => Some ([], r') | _ => go None end
          else if quotes && (Ascii.eqb x DQ || Ascii.eqb x "'") then go (Some x)
          else go None
      end
  end.
Definition tag_chunk (c : ascii) (s : bytes) : chunk :=
  let (l, s1) := match s with "-" :: r => (true, r) | _ => (false, s) end in
  let (r, s2) := match rev s1 with "-" :: x => (true, rev x) | _ => (false, s1) end in
  if Ascii.eqb c "{" then CVar l r s2 else if Ascii.eqb c "%" then CTag l r s2 else CNote l r.
Fixpoint chunks (fuel : nat) (s : bytes) : option (list chunk) :=
  match fuel with
  | 0 => None
  | S f =>
      match upto_open s with
      | ([], []) => Some []
      | ([], _ :: c :: r) =>
          match upto_close (negb (Ascii.eqb c "#")) (closer c) None r with
          | Some (x, r') => match chunks f r' with Some l => Some (tag_chunk c x :: l) | None => None end
          | None => None
          end
      | (t, r) => match chunks f r with Some l => Some (CText t :: l) | None => None end
      end
  end.
Definition trims_before (c : chunk) : bool := match c with CText _ => false | CVar l _ _ | CTag l _ _ | CNote l _ => l end.
Definition trims_after (c : chunk) : bool := match c with CText _ => false | CVar _ r _ | CTag _ r _ | CNote _ r => r end.
Fixpoint trimmed (before : bool) (l : list chunk) : list chunk :=
  match l with
  | [] => []
  | CText s :: r =>
      let s1 := if before then trim_start s else s in
      let s2 := match r with c :: _ => if trims_before c then trim_end s1 else s1 | [] => s1 end in
      (match s2 with [] => [] | _ => [CText s2] end) ++ trimmed false r
  | c :: r => c :: trimmed (trims_after c) r
  end.

(** ** Expressions *)
Inductive tok := KName (s : bytes) | KStr (s : bytes) | KInt (n : N) | KSign (s : bytes).
Definition name_letter (c : ascii) : bool := is_ascii_alnum c || Ascii.eqb c "_".
Fixpoint span_of (p : ascii -> bool) (s : bytes) : bytes * bytes :=
  match s with c :: r => if p c then let (a, b) := span_of p r in (c :: a, b) else ([], s) | [] => ([], []) end.
Fixpoint toks (fuel : nat) (s : bytes) : option (list tok) :=
  match fuel with
  | 0 => None
  | S f =>
      let more t r := match toks f r with Some l => Some (t :: l) | None => None end in
      match s with
      | [] => Some []
      | c :: r =>
          if blank c then toks f r
          else if is_digit c then
            let (a, b) := span_of is_digit s in match digits_val 0 a with Some n => more (KInt n) b | None => None end
          else if name_letter c then let (a, b) := span_of name_letter s in more (KName a) b
          else if Ascii.eqb c DQ || Ascii.eqb c "'" then
            match span_of (fun x => negb (Ascii.eqb x c)) r with
            | (a, _ :: b) => more (KStr a) b
            | _ => None
            end
          else match s with
               | ":" :: ":" :: b => more (KSign (bs "::")) b
               | "=" :: "=" :: b => more (KSign (bs "==")) b
               | "!" :: "=" :: b => more (KSign (bs "!=")) b
               | _ => more (KSign [c]) r
               end
      end
  end.

Inductive expr :=
| EStr (s : bytes) | EInt (n : N) | EBool (b : bool)
| EPath (x : bytes) (keys : list bytes)
| EList (l : list expr)
| EOp (o : bytes) (a b : expr)                                  (* or and == != > in ~ + % *)
| ENot (e : expr)
| EFilter (e : expr) (f : bytes) (args : list (bytes * expr))
| ECall (space f : bytes) (args : list (bytes * expr)).        (* no space: a function *)

(** levels of precedence, from the loosest *)
Definition level_ops (n : nat) : list bytes :=
  match n with
  | 0 => [bs "or"] | 1 => [bs "and"] | 3 => [bs "=="; bs "!="; bs ">"; bs "in"]
  | 4 => [bs "~"] | 6 => [bs "+"] | 7 => [bs "%"] | _ => []
  end.
Definition op_of (t : tok) : bytes := match t with KName s | KSign s => s | _ => [] end.
Definition sign (s : string) (t : tok) : bool := match t with KSign x => beqb x (bs s) | _ => false end.
Fixpoint keys_of (ts : list tok) : list bytes * list tok :=
  match ts with
  | KSign d :: (KName k :: r) as ts' => if beqb d (bs ".") then let (a, b) := keys_of r in (k :: a, b) else ([], ts)
  | _ => ([], ts)
  end.
Fixpoint read_expr (fuel lvl : nat) (ts : list tok) : option (expr * list tok) :=
  match fuel with
  | 0 => None
  | S f =>
      match lvl with
      | 2 => match ts with
             | KName x :: r =>
                 if beqb x (bs "not") then match read_expr f 3 r with Some (e, r') => Some (ENot e, r') | None => None end
                 else read_expr f 3 ts
             | _ => read_expr f 3 ts
             end
      | 5 => match read_expr f 6 ts with Some (e, r) => read_filters f e r | None => None end
      | 8 =>
          match ts with
          | KStr s :: r => Some (EStr s, r)
          | KInt n :: r => Some (EInt n, r)
          | KSign s :: r =>
              if beqb s (bs "(") then
                match read_expr f 0 r with
                | Some (e, t :: r') => if sign ")" t then Some (e, r') else None
                | _ => None
                end
              else if beqb s (bs "[") then
                match read_list f r with Some (l, r') => Some (EList l, r') | None => None end
              else None
          | KName x :: r =>
              if beqb x (bs "true") || beqb x (bs "True") then Some (EBool true, r)
              else if beqb x (bs "false") || beqb x (bs "False") then Some (EBool false, r)
              else match r with
                   | t :: r1 =>
                       if sign "::" t then
                         match r1 with
                         | KName y :: t' :: r2 =>
                             if sign "(" t' then match read_args f r2 with Some (l, r3) => Some (ECall x y l, r3) | None => None end else None
                         | _ => None
                         end
                       else if sign "(" t then match read_args f r1 with Some (l, r2) => Some (ECall [] x l, r2) | None => None end
                       else let (ks, r') := keys_of r in Some (EPath x ks, r')
                   | [] => Some (EPath x [], [])
                   end
          | [] => None
          end
      | _ => match read_expr f (S lvl) ts with Some (e, r) => read_ops f lvl e r | None => None end
      end
  end
with read_ops (fuel lvl : nat) (e : expr) (ts : list tok) : option (expr * list tok) :=
  match fuel with
  | 0 => None
  | S f =>
      match ts with
      | t :: r =>
          if existsb (beqb (op_of t)) (level_ops lvl) then
            match read_expr f (S lvl) r with Some (e', r') => read_ops f lvl (EOp (op_of t) e e') r' | None => None end
          else Some (e, ts)
      | [] => Some (e, [])
      end
  end
with read_filters (fuel : nat) (e : expr) (ts : list tok) : option (expr * list tok) :=
  match fuel with
  | 0 => None
  | S f =>
      match ts with
      | t :: KName x :: r =>
          if sign "|" t then
            match r with
            | t' :: r1 => if sign "(" t' then match read_args f r1 with Some (l, r2) => read_filters f (EFilter e x l) r2 | None => None end
                          else read_filters f (EFilter e x []) r
            | [] => Some (EFilter e x [], [])
            end
          else Some (e, ts)
      | _ => Some (e, ts)
      end
  end
with read_args (fuel : nat) (ts : list tok) : option (list (bytes * expr) * list tok) :=
  match fuel with
  | 0 => None
  | S f =>
      match ts with
      | KName x :: t :: r =>
          if sign "=" t then
            match read_expr f 0 r with
            | Some (e, t' :: r') =>
                if sign ")" t' then Some ([(x, e)], r')
                else if sign "," t' then match read_args f r' with Some (l, r2) => Some ((x, e) :: l, r2) | None => None end
                else None
            | _ => None
            end
          else None
      | t :: r => if sign ")" t then Some ([], r) else None
      | [] => None
      end
  end
with read_list (fuel : nat) (ts : list tok) : option (list expr * list tok) :=
  match fuel with
  | 0 => None
  | S f =>
      match read_expr f 0 ts with
      | Some (e, t :: r) =>
          if sign "]" t then Some ([e], r)
          else if sign "," t then match read_list f r with Some (l, r') => Some (e :: l, r') | None => None end
          else None
      | _ => None
      end
  end.
Definition whole_expr (ts : list tok) : option expr :=
  match read_expr (20 + 20 * List.length ts) 0 ts with Some (e, []) => Some e | _ => None end.

(** ** Statements *)
Inductive node :=
| NText (s : bytes)
| NShow (e : expr)
| NSet (x : bytes) (e : expr)
| NIf (l : list (expr * list node)) (other : list node)
| NFor (x : bytes) (e : expr) (body : list node)
| NImport (file name : bytes)
| NMacro (name : bytes) (params : list bytes) (body : list node).

Fixpoint params_of (ts : list tok) : list bytes :=
  match ts with KName x :: r => x :: params_of r | _ :: r => params_of r | [] => [] end.
(** the nodes up to a tag that ends or continues a block, with the words of that tag *)
Fixpoint read_nodes (fuel : nat) (l : list chunk) : option (list node * list tok * list chunk) :=
  match fuel with
  | 0 => None
  | S f =>
      let more n r := match read_nodes f r with Some (ns, t, r') => Some (n :: ns, t, r') | None => None end in
      match l with
      | [] => Some ([], [], [])
      | CText s :: r => more (NText s) r
      | CNote _ _ :: r => read_nodes f r
      | CVar _ _ s :: r =>
          match toks (S (List.length s)) s with
          | Some ts => match whole_expr ts with Some e => more (NShow e) r | None => None end
          | None => None
          end
      | CTag _ _ s :: r =>
          match toks (S (List.length s)) s with
          | Some (KName x :: ts) =>
              if beqb x (bs "import") then
                match ts with [KStr file; KName _; KName y] => more (NImport file y) r | _ => None end
              else if beqb x (bs "set") then
                match ts with
                | KName y :: _ :: e => match whole_expr e with Some e' => more (NSet y e') r | None => None end
                | _ => None
                end
              else if beqb x (bs "macro") then
                match ts with
                | KName y :: ps =>
                    match read_nodes f r with Some (ns, _, r') => more (NMacro y (params_of ps) ns) r' | None => None end
                | _ => None
                end
              else if beqb x (bs "for") then
                match ts with
                | KName y :: _ :: e =>
                    match whole_expr e, read_nodes f r with
                    | Some e', Some (ns, _, r') => more (NFor y e' ns) r'
                    | _, _ => None
                    end
                | _ => None
                end
              else if beqb x (bs "if") then
                match read_branches f ts r with Some (bl, other, r') => more (NIf bl other) r' | None => None end
              else Some ([], KName x :: ts, r)
          | _ => None
          end
      end
  end
with read_branches (fuel : nat) (cond : list tok) (l : list chunk) : option (list (expr * list node) * list node * list chunk) :=
  match fuel with
  | 0 => None
  | S f =>
      match whole_expr cond, read_nodes f l with
      | Some e, Some (ns, KName x :: ts, r) =>
          if beqb x (bs "elif") then
            match read_branches f ts r with Some (bl, other, r') => Some ((e, ns) :: bl, other, r') | None => None end
          else if beqb x (bs "else") then
            match read_nodes f r with Some (ns', _, r') => Some ([(e, ns)], ns', r') | None => None end
          else Some ([(e, ns)], [], r)
      | _, _ => None
      end
  end.
Definition template := list node.
Definition read_template (s : bytes) : option template :=
  match chunks (S (List.length s)) s with
  | Some l => match read_nodes (2 * List.length l + 20) (trimmed false l) with Some (ns, _, []) => Some ns | _ => None end
  | None => None
  end.

(** ** Values *)
Inductive value := VJ (j : json) | VZ (z : Z) | VB (b : bool).
Definition truthy (v : value) : bool :=
  match v with
  | VJ (JStr []) | VJ (JArr []) | VJ (JObj []) | VJ (JNum 0) => false
  | VJ _ => true
  | VZ z => negb (z =? 0)%Z
  | VB b => b
  end.
Fixpoint member (k : bytes) (l : list (bytes * json)) : option json :=
  match l with [] => None | (k', j) :: r => if beqb k k' then Some j else member k r end.
Fixpoint reach (j : json) (keys : list bytes) : option json :=
  match keys with
  | [] => Some j
  | k :: r => match j with JObj l => match member k l with Some j' => reach j' r | None => None end | _ => None end
  end.
Definition env := list (bytes * value).
Fixpoint bound (x : bytes) (e : env) : option value :=
  match e with [] => None | (y, v) :: r => if beqb x y then Some v else bound x r end.
Definition path_value (e : env) (x : bytes) (keys : list bytes) : option value :=
  match bound x e with
  | Some v => match keys with
              | [] => Some v
              | _ => match v with VJ j => match reach j keys with Some j' => Some (VJ j') | None => None end | _ => None end
              end
  | None => None
  end.
Definition number (v : value) : option Z :=
  match v with VZ z => Some z | VJ (JNum n) => Some (Z.of_nat n) | _ => None end.
Definition same (a b : value) : bool :=
  match number a, number b with
  | Some x, Some y => (x =? y)%Z
  | _, _ => match a, b with
            | VJ (JStr s), VJ (JStr t) => beqb s t
            | VB x, VB y => Bool.eqb x y
            | _, _ => false
            end
  end.
Definition signed_dec (z : Z) : bytes := if (z <? 0)%Z then "-" :: dec (Z.abs_nat z) else dec (Z.abs_nat z).
Definition shown_text (v : value) : result bytes :=
  match v with
  | VJ (JStr s) => Ok s
  | VJ (JNum n) => Ok (dec n)
  | VZ z => Ok (signed_dec z)
  | _ => Panic
  end.
Definition strings_of (l : list json) : option (list bytes) :=
  fold_right (fun j r => match j, r with JStr s, Some r' => Some (s :: r') | _, _ => None end) (Some []) l.

Section Engine.
Variable w : world.

(** the built-in filters and the function [range] *)
Definition apply_filter (v : value) (f : bytes) (args : list (bytes * value)) : result value :=
  if beqb f (bs "int") then
    match v with VJ (JStr s) => Ok (VZ (tera_int w s)) | _ => Panic end
  else if beqb f (bs "join") then
    match v, bound (bs "sep") args with
    | VJ (JArr l), Some (VJ (JStr sep)) => match strings_of l with Some s => Ok (VJ (JStr (join sep s))) | None => Panic end
    | _, _ => Panic
    end
  else if beqb f (bs "length") then
    match v with VJ (JArr l) => Ok (VZ (Z.of_nat (List.length l))) | _ => Panic end
  else if beqb f (bs "nth") then
    match v, bound (bs "n") args with
    | VJ (JArr l), Some a =>
        match number a with
        | Some z => if (z <? 0)%Z then Panic else Ok (VJ (nth (Z.to_nat z) l (JStr [])))
        | None => Panic
        end
    | _, _ => Panic
    end
  else Panic.
Definition range_of (args : list (bytes * value)) : result (list value) :=
  match bound (bs "start") args, bound (bs "end") args with
  | Some a, Some b =>
      match number a, number b with
      | Some x, Some y =>
          if ((x <? 0) || (y <? x))%Z then Panic
          else Ok (map (fun n => VZ (Z.of_nat n)) (seq (Z.to_nat x) (Z.to_nat y - Z.to_nat x)))
      | _, _ => Panic
      end
  | _, _ => Panic
  end.

(** the value of an expression; a name that is not bound is an error, except where only its
    truth counts *)
Fixpoint value_of (e : env) (x : expr) : result value :=
  let truth (y : expr) : result bool :=
    match y with
    | EPath n ks => Ok (match path_value e n ks with Some v => truthy v | None => false end)
    | _ => let* v := value_of e y in Ok (truthy v)
    end in
  let args := fix args (l : list (bytes * expr)) : result (list (bytes * value)) :=
    match l with [] => Ok [] | (k, a) :: r => let* v := value_of e a in let* vs := args r in Ok ((k, v) :: vs) end in
  match x with
  | EStr s => Ok (VJ (JStr s))
  | EInt n => Ok (VZ (Z.of_N n))
  | EBool b => Ok (VB b)
  | EPath n ks => match path_value e n ks with Some v => Ok v | None => Panic end
  | EList _ | ECall _ _ _ => Panic
  | ENot a => let* b := truth a in Ok (VB (negb b))
  | EFilter a f l => let* v := value_of e a in let* vs := args l in apply_filter v f vs
  | EOp o a b =>
      if beqb o (bs "and") then
        let* p := truth a in if (p : bool) then let* q := truth b in Ok (VB q) else Ok (VB false)
      else if beqb o (bs "or") then
        let* p := truth a in if (p : bool) then Ok (VB true) else let* q := truth b in Ok (VB q)
      else if beqb o (bs "in") then
        let* v := value_of e a in
        match b with
        | EList l =>
            (fix among (l : list expr) : result value :=
               match l with
               | [] => Ok (VB false)
               | y :: r => let* u := value_of e y in if same v u then Ok (VB true) else among r
               end) l
        | _ => let* u := value_of e b in
               match u with VJ (JArr l) => Ok (VB (existsb (fun j => same v (VJ j)) l)) | _ => Panic end
        end
      else
        let* u := value_of e a in
        let* v := value_of e b in
        if beqb o (bs "==") then Ok (VB (same u v))
        else if beqb o (bs "!=") then Ok (VB (negb (same u v)))
        else if beqb o (bs "~") then
          let* s := shown_text u in let* t := shown_text v in Ok (VJ (JStr (s ++ t)))
        else
          match number u, number v with
          | Some m, Some n =>
              if beqb o (bs ">") then Ok (VB (n <? m)%Z)
              else if beqb o (bs "+") then Ok (VZ (m + n))
              else if beqb o (bs "%") then if (n =? 0)%Z then Panic else Ok (VZ (Z.rem m n))
              else Panic
          | _, _ => Panic
          end
  end.
Definition truth_of (e : env) (y : expr) : result bool :=
  match y with
  | EPath n ks => Ok (match path_value e n ks with Some v => truthy v | None => false end)
  | _ => let* v := value_of e y in Ok (truthy v)
  end.
Definition args_of (e : env) : list (bytes * expr) -> result (list (bytes * value)) :=
  fix args (l : list (bytes * expr)) : result (list (bytes * value)) :=
    match l with [] => Ok [] | (k, a) :: r => let* v := value_of e a in let* vs := args r in Ok ((k, v) :: vs) end.

(** ** Rendering *)
Variable call : bytes -> bytes -> list (bytes * value) -> result bytes.   (* space, macro, arguments *)
(** the text, and the names bound afterwards; what is set in a loop is gone after each turn *)
Fixpoint render_node (e : env) (n : node) : result (bytes * env) :=
  let all := fix all (e : env) (l : list node) : result (bytes * env) :=
    match l with
    | [] => Ok ([], e)
    | n :: r => let* p := render_node e n in let* q := all (snd p) r in Ok (fst p ++ fst q, snd q)
    end in
  match n with
  | NText s => Ok (s, e)
  | NShow (ECall space f l) => let* vs := args_of e l in let* s := call space f vs in Ok (s, e)
  | NShow x => let* v := value_of e x in let* s := shown_text v in Ok (s, e)
  | NSet x y => let* v := value_of e y in Ok ([], (x, v) :: e)
  | NIf l other =>
      (fix branches (l : list (expr * list node)) : result (bytes * env) :=
         match l with
         | [] => all e other
         | (c, ns) :: r => let* b := truth_of e c in if (b : bool) then all e ns else branches r
         end) l
  | NFor x y body =>
      let* items := match y with
                    | ECall [] f l => if beqb f (bs "range") then let* vs := args_of e l in range_of vs else Panic
                    | _ => let* v := value_of e y in match v with VJ (JArr l) => Ok (map VJ l) | _ => Panic end
                    end in
      let* s := (fix turns (l : list value) : result bytes :=
                   match l with
                   | [] => Ok []
                   | v :: r => let* p := all ((x, v) :: e) body in let* q := turns r in Ok (fst p ++ q)
                   end) items in
      Ok (s, e)
  | NImport _ _ | NMacro _ _ _ => Ok ([], e)
  end.
Fixpoint render_nodes (e : env) (l : list node) : result (bytes * env) :=
  match l with
  | [] => Ok ([], e)
  | n :: r => let* p := render_node e n in let* q := render_nodes (snd p) r in Ok (fst p ++ fst q, snd q)
  end.
End Engine.

(** ** Templates *)
Definition library := list (bytes * template).
Fixpoint file_of (f : bytes) (l : library) : option template :=
  match l with [] => None | (g, t) :: r => if beqb f g then Some t else file_of f r end.
Fixpoint imported (x : bytes) (t : template) : option bytes :=
  match t with
  | [] => None
  | NImport f y :: r => if beqb x y then Some f else imported x r
  | _ :: r => imported x r
  end.
Fixpoint macro_of (x : bytes) (t : template) : option (list bytes * list node) :=
  match t with
  | [] => None
  | NMacro y ps b :: r => if beqb x y then Some (ps, b) else macro_of x r
  | _ :: r => macro_of x r
  end.
(** a macro sees its arguments only, all of which must be given *)
Fixpoint call_macro (w : world) (lib : library) (fuel : nat) (here space x : bytes) (args : list (bytes * value)) : result bytes :=
  match fuel with
  | 0 => Hang
  | S f =>
      match file_of here lib with
      | None => Panic
      | Some t =>
          match (if beqb space (bs "self") then Some here else imported space t) with
          | None => Panic
          | Some file =>
              match file_of file lib with
              | None => Panic
              | Some t' =>
                  match macro_of x t' with
                  | None => Panic
                  | Some (ps, body) =>
                      if forallb (fun p => match bound p args with Some _ => true | None => false end) ps
                      then let* r := render_nodes w (call_macro w lib f file) args body in Ok (fst r)
                      else Panic
                  end
              end
          end
      end
  end.
(** [Tera::render]: the members of the context are the names *)
Definition render_template (w : world) (lib : library) (fuel : nat) (file : bytes) (context : json) : result bytes :=
  match file_of file lib, context with
  | Some t, JObj l => let* r := render_nodes w (call_macro w lib fuel file) (map (fun kv => (fst kv, VJ (snd kv))) l) t in Ok (fst r)
  | _, _ => Panic
  end.
