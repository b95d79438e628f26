(** CONVERT and TRY_CONVERT, from the statement to the value:
    /repo/src/sql/execution/expression_parser.rs:1010-1067 and
    /repo/src/sql/execution/expressions/convert_expression.rs.

    The value converted is taken as already evaluated.  The styles are parsed
    and kept, and nothing reads them: they are left out. *)

From Coq Require Import ZArith NArith List Bool.
From Verif Require Import CastSpec CastModel ConvSpec.
Import ListNotations.

Section Convert.
Context (show_dec : Z -> nat -> list N) (read_dec : list N -> option (Z * nat)) (read_float : list N -> option (Z * nat)).
Context (to_f32 : Z -> nat -> Z * nat) (chrono : cty -> list N -> option Z).
(** [str::to_lowercase], which follows the tables of Unicode. *)
Context (to_lower : list N -> list N).

(** expression_parser.rs:1021-1036: no type named, a type known, a type not. *)
Definition target (t : option sql_type) : option (option cty) :=
  match t with
  | None => Some None
  | Some Int | Some Integer => Some (Some TInt)
  | Some BigInt => Some (Some TBig)
  | Some Float | Some Double | Some Decimal => Some (Some TDec)
  | Some Char => Some (Some TChar)
  | Some Varchar => Some (Some TVar)
  | Some Boolean => Some (Some TBool)
  | Some (Another _) => None
  end.

(** expression_parser.rs:1051-1057: the type of the column of the result. *)
Definition return_type (inner : cty) (t : option cty) (cs : option (list N)) : cty :=
  match t with
  | Some ty => ty
  | None => match cs with Some _ => TVar | None => inner end
  end.

Definition utf8 : list N := [117; 116; 102; 56]%N.
Definition utf8mb4 : list N := [117; 116; 102; 56; 109; 98; 52]%N.

Definition same (a b : list N) : bool :=
  if list_eq_dec N.eq_dec a b then true else false.

(** convert_expression.rs:48-78 [evaluate], and 80-117 [evaluate_join], which
    does the same. *)
Definition evaluate (v : val) (t : option cty) (cs : option (list N)) (is_try : bool) : option val :=
  match cs with
  | Some name =>
    if same (to_lower name) utf8 || same (to_lower name) utf8mb4 then Some v else None
  | None =>
    match t with
    | Some ty =>
      match cast_to show_dec read_dec read_float to_f32 chrono v ty with
      | Some w => Some w
      | None => if is_try then Some (VNull ty) else None
      end
    | None => Some v
    end
  end.

(** The two together. *)
Definition convert (c : call) (v : val) : outcome :=
  match target (to_type c) with
  | None => Not_planned
  | Some t =>
    match evaluate v t (charset c) (try_ c) with
    | Some w => Gives w (return_type (type_of v) t (charset c))
    | None => Fails
    end
  end.

End Convert.
