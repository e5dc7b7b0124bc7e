(** * White space and characters *)
From Verif Require Import Base SpecScan.
Local Open Scope char_scope.
Local Open Scope nat_scope.

Definition starts_char (s : bytes) : Prop := match s with c :: _ => is_cont c = false | [] => True end.
(** the characters that are white space, as their UTF-8 bytes *)
Definition whites : list bytes :=
  map (map ascii_of_N)
    [[9]; [10]; [11]; [12]; [13]; [32]; [194; 133]; [194; 160]; [225; 154; 128];
     [226; 128; 128]; [226; 128; 129]; [226; 128; 130]; [226; 128; 131]; [226; 128; 132]; [226; 128; 133];
     [226; 128; 134]; [226; 128; 135]; [226; 128; 136]; [226; 128; 137]; [226; 128; 138];
     [226; 128; 168]; [226; 128; 169]; [226; 128; 175]; [226; 129; 159]; [227; 128; 128]]%N.
Definition white (ch : bytes) : bool := if in_dec (list_eq_dec Ascii.ascii_dec) ch whites then true else false.
(** a newline and all white space before it become one space; the flag: the rest starts
    with white space and a newline *)
Fixpoint flatten (l : list bytes) : list bytes * bool :=
  match l with
  | [] => ([], false)
  | ch :: r =>
      let (t, absorbed) := flatten r in
      if list_eq_dec Ascii.ascii_dec ch ["010"] then (if absorbed then t else [" "] :: t, true)
      else if white ch && absorbed then (t, true) else (ch :: t, false)
  end.
Definition character (ch : bytes) : Prop := ch <> [] /\ utf8 ch /\ forall a b, ch = a ++ b -> utf8 a -> utf8 b -> a = [] \/ b = [].
Definition on_one_line (s t : bytes) : Prop :=
  exists l, Forall character l /\ s = List.concat l /\ t = List.concat (fst (flatten l)).
(** each newline becomes a space *)
Definition joined (s t : bytes) : Prop := Forall2 (fun a b => b = if Ascii.ascii_dec a "010" then " " else a) s t.
(** without the white space at the start *)
Definition unindented (s t : bytes) : Prop :=
  exists l, Forall character l /\ s = List.concat l ++ t /\ Forall (fun ch => white ch = true) l
    /\ (t = [] \/ exists ch r, t = ch ++ r /\ character ch /\ white ch = false /\ utf8 r).
