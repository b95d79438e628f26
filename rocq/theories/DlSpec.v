(** * Specification: dates and times written in statements (C118) *)
From Coq Require Import ZArith NArith.
From stdpp Require Import list.
From Verif Require Import CastSpec.
Local Open Scope Z_scope.

(** A literal: 'text' or TYPE 'text'. *)
Inductive lit := Plain (s : list N) | Typed (t : cty) (s : list N).
Definition lit_text (l : lit) : list N := match l with Plain s | Typed _ s => s end.

(** What a text says as a date (days since 1970-01-01), as a time (seconds since midnight) and as an instant (seconds since
    1970-01-01 00:00 UTC). *)
Record calendar := { day_of : list N -> option Z; second_of : list N -> option Z; instant_of : list N -> option Z }.
Definition says (c : calendar) (t : cty) (s : list N) : option Z :=
  match t with TDate => day_of c s | TTime => second_of c s | TTs => instant_of c s | _ => None end.
(** The value of type [t] that is number [z]. *)
Definition moment (t : cty) (z : Z) : option val :=
  match t with TDate => Some (VDate z) | TTime => Some (VTime z) | TTs => Some (VTs z) | _ => None end.
Definition temporal (t : cty) : Prop := t = TDate \/ t = TTime \/ t = TTs.
Definition seconds_per_day : Z := 86400.

(** Comparisons. *)
Inductive cop := Eq | Ne | Lt | Le | Gt | Ge.
Definition holds (op : cop) (a b : Z) : Prop :=
  match op with Eq => a = b | Ne => a <> b | Lt => a < b | Le => a <= b | Gt => a > b | Ge => a >= b end.
(** The answer of a comparison: an error (None), NULL (Some None), or a truth value. *)
Definition answers (o : option (option bool)) (P : Prop) : Prop := exists b, o = Some (Some b) /\ (b = true <-> P).
