(** * Specification of the JSON output: C58, C59 *)
From Verif Require Import Base World Location Token Meta Inline Block Asg Json SpecLevel SpecGraph.
Local Open Scope char_scope.
Local Open Scope nat_scope.

(** ** Texts that are JSON, and the value they stand for (RFC 8259).  Of the numbers only the
    natural ones; the texts are UTF-8, so [code_point] gives the bytes an escape stands for. *)
Definition blank (s : bytes) : Prop := Forall (fun c => In c [" "; "009"; "010"; "013"]) s.
Definition code_point (n : N) : bytes :=
  map ascii_of_N
    (if (n <? 128)%N then [n]
     else if (n <? 2048)%N then [192 + n / 64; 128 + n mod 64]
     else if (n <? 65536)%N then [224 + n / 4096; 128 + n / 64 mod 64; 128 + n mod 64]
     else [240 + n / 262144; 128 + n / 4096 mod 64; 128 + n / 64 mod 64; 128 + n mod 64])%N.
Definition hex (c : ascii) (n : N) : Prop :=
  In (c, n) (combine (bs "0123456789abcdefABCDEF") [0;1;2;3;4;5;6;7;8;9;10;11;12;13;14;15;10;11;12;13;14;15]%N).
Inductive hex4 : bytes -> N -> Prop :=
| hex_digits a b c d i j k l : hex a i -> hex b j -> hex c k -> hex d l ->
    hex4 [a; b; c; d] (4096 * i + 256 * j + 16 * k + l).
(** what stands between the quotes of a string, and its text *)
Inductive characters : bytes -> bytes -> Prop :=
| ch_end : characters [] []
| ch_self c s t : (32 <= N_of_ascii c)%N -> c <> DQ -> c <> "\" -> characters s t -> characters (c :: s) (c :: t)
| ch_short c d s t : In (c, d) [(DQ, DQ); ("\", "\"); ("/", "/"); ("b", "008"); ("f", "012"); ("n", "010"); ("r", "013"); ("t", "009")] ->
    characters s t -> characters ("\" :: c :: s) (d :: t)
| ch_code h n s t : hex4 h n -> (n < 55296 \/ 57344 <= n)%N -> characters s t ->
    characters (bs "\u" ++ h ++ s) (code_point n ++ t)
| ch_pair h n h' n' s t : hex4 h n -> (55296 <= n < 56320)%N -> hex4 h' n' -> (56320 <= n' < 57344)%N -> characters s t ->
    characters (bs "\u" ++ h ++ bs "\u" ++ h' ++ s) (code_point (65536 + (n - 55296) * 1024 + (n' - 56320)) ++ t).
Inductive value : bytes -> json -> Prop :=
| va_string s t : characters s t -> value (DQ :: s ++ [DQ]) (JStr t)
| va_zero : value ["0"] (JNum 0)
| va_number c s n : c <> "0" -> decimal (c :: s) (N.of_nat n) -> value (c :: s) (JNum n)
| va_empty_array s : blank s -> value ("[" :: s ++ ["]"]) (JArr [])
| va_array s l : elements s l -> value ("[" :: s ++ ["]"]) (JArr l)
| va_empty_object s : blank s -> value ("{" :: s ++ ["}"]) (JObj [])
| va_object s l : members s l -> value ("{" :: s ++ ["}"]) (JObj l)
with elements : bytes -> list json -> Prop :=
| el_one a s b j : blank a -> value s j -> blank b -> elements (a ++ s ++ b) [j]
| el_more a s b j r l : blank a -> value s j -> blank b -> elements r l -> elements (a ++ s ++ b ++ "," :: r) (j :: l)
with members : bytes -> list (bytes * json) -> Prop :=
| me_one a n b c s d k j : blank a -> characters n k -> blank b -> blank c -> value s j -> blank d ->
    members (a ++ DQ :: n ++ DQ :: b ++ ":" :: c ++ s ++ d) [(k, j)]
| me_more a n b c s d k j r l : blank a -> characters n k -> blank b -> blank c -> value s j -> blank d -> members r l ->
    members (a ++ DQ :: n ++ DQ :: b ++ ":" :: c ++ s ++ d ++ "," :: r) ((k, j) :: l).
Definition json_text (s : bytes) (j : json) : Prop := exists a t b, s = a ++ t ++ b /\ blank a /\ value t j /\ blank b.

(** every object has each of its names once *)
Inductive names_once : json -> Prop :=
| no_str s : names_once (JStr s)
| no_num n : names_once (JNum n)
| no_arr l : Forall names_once l -> names_once (JArr l)
| no_obj l : NoDup (map fst l) -> Forall (fun kv => names_once (snd kv)) l -> names_once (JObj l).

(** ** What the output does not show of a graph: whether a span is still open, for metadata the
    block type and whether it stands in the text, the metadata of breaks, the ids, and children of
    blocks that have none in the code *)
Definition seen_meta (m : metadata) : metadata := mkMeta (m_attrs m) (m_options m) (m_roles m) false None (m_loc m).
Fixpoint seen_inline (i : inline) : inline :=
  match i with
  | ISpan v f l m loc _ => ISpan v f (map seen_inline l) (option_map seen_meta m) loc false
  | IRef v t l m loc => IRef v t (map seen_inline l) (option_map seen_meta m) loc
  | ILit n k s loc => ILit n k s loc
  | IBreak loc => IBreak loc
  end.
Definition seen_head (h : head) : head :=
  let f := map seen_inline in
  match h with
  | HSection i t l => HSection i (f t) l
  | HListItem m p => HListItem m (f p)
  | HDListItem t p => HDListItem (f t) (f p)
  | HMacro t c => HMacro t (f c)
  | HLeaf n fm d l => HLeaf n fm d (f l)
  | HParent n v d t => HParent n v d (f t)
  | HCell l => HCell (f l)
  | HList v => HList v
  | HDList => HDList
  | HBreak v => HBreak v
  end.
Fixpoint seen_block (b : block) : block :=
  match b with
  | Blk h m k loc =>
      Blk (seen_head h) (match h with HBreak _ => None | _ => option_map seen_meta m end)
          (match h with HBreak _ | HMacro _ _ | HLeaf _ _ _ _ | HCell _ => [] | _ => map seen_block k end) loc
  end.
Definition seen (a : asg) : asg :=
  mkAsg (a_attrs a) (option_map (fun h => mkHeader (map seen_inline (hd_title h)) (hd_loc h)) (a_header a)) [] []
        (map seen_block (a_blocks a)) (a_loc a).
