(** * C43: markup tokens come only from their spelling *)
From Verif Require Import Base Location Token Scanner SpecScan SpecStart ScanStart.
Local Open Scope char_scope.
Local Open Scope nat_scope.

Theorem C43_token_starts : forall src files ts sc pre t post,
  yields src files ts sc -> ts = pre ++ t :: post -> no_tags pre ->
  exists after, src = text_of pre ++ after /\ started (ttype t) after.
Proof. exact token_starts. Qed.
Print Assumptions C43_token_starts.

(** hence, with or without include tags: where no opener of a type occurs, no token of
    that type is yielded *)
Theorem C43_no_opener_no_token : forall src files ts sc t l,
  yields src files ts sc -> In t ts -> openers (ttype t) = Some l -> exists p, In p l /\ occurs p src.
Proof. exact no_opener_no_token. Qed.
Print Assumptions C43_no_opener_no_token.

Example C43_example : exists ts, scan (bs "a {b} *c* <<d>>") = Ok ts
  /\ map ttype ts = [TText; TAttributeReference; TText; TStrong; TText; TStrong; TText; TCrossReference; TEof].
Proof. eexists. split; vm_compute; reflexivity. Qed.
