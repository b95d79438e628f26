(** What CONVERT and TRY_CONVERT are to give (property C132). *)

From Coq Require Import NArith List.
From Verif Require Import CastSpec.

(** The types a statement can name; [Another] stands for all the others. *)
Inductive sql_type :=
| Int | Integer | BigInt | Float | Double | Decimal | Char | Varchar | Boolean
| Another (n : nat).

(** The type of column each of them is. *)
Definition column_of (t : sql_type) : option cty :=
  match t with
  | Int | Integer => Some TInt
  | BigInt => Some TBig
  | Float | Double | Decimal => Some TDec
  | Char => Some TChar
  | Varchar => Some TVar
  | Boolean => Some TBool
  | Another _ => None
  end.

(** The call as written: TRY or not, the type, the character set. *)
Record call := { try_ : bool; to_type : option sql_type; charset : option (list N) }.

(** A call comes out as a value, with an error when the statement is planned, or
    with one when it runs. *)
Inductive outcome := Gives (v : val) (column : cty) | Not_planned | Fails.
