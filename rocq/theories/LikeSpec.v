(** * What LIKE means (C55) *)
From Coq Require Import NArith List.
Import ListNotations.
Local Open Scope N_scope.

Inductive tok := Lit (c : N) | AnyOne | AnySeq.

(** The meaning of a pattern's characters; a character after the escape character stands for
    itself.  (An escape character at the very end of a pattern stands for nothing.) *)
Fixpoint tokens (esc : option N) (p : list N) : list tok :=
  match p with
  | [] => []
  | c :: p' =>
      if match esc with Some e => e =? c | None => false end
      then match p' with d :: p'' => Lit d :: tokens esc p'' | [] => [] end
      else (if c =? 37 then AnySeq else if c =? 95 then AnyOne else Lit c) :: tokens esc p'
  end.

(** Equal, or the same ASCII letter in the other case. *)
Definition same_letter (cs : bool) (a b : N) : Prop :=
  a = b \/ (cs = false /\ ((65 <= a <= 90 /\ b = a + 32) \/ (65 <= b <= 90 /\ a = b + 32))).

(** The value can be cut into parts matching the tokens. *)
Inductive likes (cs : bool) : list tok -> list N -> Prop :=
| likes_nil : likes cs [] []
| likes_lit c d ts v : same_letter cs c d -> likes cs ts v -> likes cs (Lit c :: ts) (d :: v)
| likes_one d ts v : likes cs ts v -> likes cs (AnyOne :: ts) (d :: v)
| likes_seq w ts v : likes cs ts v -> likes cs (AnySeq :: ts) (w ++ v).

Definition is_ascii (c : N) : Prop := c < 128.
