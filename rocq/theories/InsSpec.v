(* Values, columns and rows of SQL tables, and what a row stored by an INSERT
   must look like.  This file is specification: nothing in it comes from the
   insert path of the engine. *)
From Coq Require Import ZArith String Ascii.
From stdpp Require Import base list strings gmap.

(* The types a column can have (a part of types_db/type_id.rs). *)
Inductive ITy := TTiny | TSmall | TInt | TBig | TText | TTime.
Global Instance ITy_eq_dec : EqDecision ITy.
Proof. solve_decision. Defined.

(* The contents of a value: NULL, a number, or a text. *)
Inductive IPay := PNull | PNum (z : Z) | PText (s : string).
Global Instance IPay_eq_dec : EqDecision IPay.
Proof. solve_decision. Defined.

(* A value: contents with a type tag. *)
Record IVal := mkV { v_ty : ITy; v_pay : IPay }.
Global Instance IVal_eq_dec : EqDecision IVal.
Proof. solve_decision. Defined.

Definition is_null (v : IVal) : bool :=
  match v_pay v with PNull => true | _ => false end.

(* Two values are the same SQL value. *)
Definition same_value (a b : IVal) : Prop :=
  (v_pay a = PNull /\ v_pay b = PNull) \/ a = b.

(* A column of a table. *)
Record IFk := mkFk { fk_table : string; fk_col : string }.
Record ICol := mkC {
  c_name : string;
  c_ty : ITy;
  c_pk : bool;
  c_notnull : bool;
  c_unique : bool;
  c_check : option string;
  c_default : option IVal;
  c_fk : option IFk
}.

Notation IRow := (list IVal) (only parsing).

(* The same text up to the case of its (ASCII) letters; [u] is in upper case. *)
Definition in_any_case (s u : string) : Prop :=
  Forall2 (fun a b => a = b \/ (65 <= nat_of_ascii b <= 90 /\ nat_of_ascii a = nat_of_ascii b + 32))
    (list_ascii_of_string s) (list_ascii_of_string u).

(* A default that asks for the time of the insertion. *)
Definition asks_now (v : IVal) : Prop :=
  exists s, v_pay v = PText s
    /\ (in_any_case s "CURRENT_TIMESTAMP" \/ in_any_case s "NOW()").

(* The value of a column that the INSERT left out: its default, else NULL. *)
Definition default_of (now : Z) (c : ICol) (v : IVal) : Prop :=
  match c_default c with
  | Some d => (asks_now d -> v = mkV TTime (PNum now)) /\ (~ asks_now d -> v = d)
  | None => v = mkV (c_ty c) PNull /\ c_notnull c = false
  end.

(* [row] is what an INSERT of [given] (the values of the first columns) into a
   table with columns [cols] should store, when the keys in [keys] were handed
   out for this row. *)
Definition stored_row (now : Z) (cols : list ICol) (given row : IRow)
    (keys : list Z) : Prop :=
  length row = length cols
  /\ forall i c v, cols !! i = Some c -> row !! i = Some v ->
     match given !! i with
     | Some g => if is_null g && c_pk c
                 then exists k, v = mkV TInt (PNum k) /\ k ∈ keys
                 else v = g
     | None => if c_pk c
               then exists k, v = mkV TInt (PNum k) /\ k ∈ keys
               else default_of now c v
     end.

(* Every NOT NULL column of the row is non-null. *)
Definition not_nulls_hold (cols : list ICol) (row : IRow) : Prop :=
  forall i c v, cols !! i = Some c -> row !! i = Some v ->
    c_notnull c = true -> is_null v = false.

(* The non-null value [v] occurs in column [col] of [rows]. *)
Definition occurs_in (i : nat) (v : IVal) (rows : list IRow) : Prop :=
  exists r u, r ∈ rows /\ r !! i = Some u /\ same_value u v.

(* No two rows have the same value in column [i]. *)
Definition column_unique (i : nat) (rows : list IRow) : Prop :=
  forall a b ra rb u v, a <> b -> rows !! a = Some ra -> rows !! b = Some rb ->
    ra !! i = Some u -> rb !! i = Some v -> ~ same_value u v.

(* [v] occurs in the column that the foreign key [f] names; [tabs] gives the
   columns and the rows of each table. *)
Definition refers (tabs : string -> option (list ICol * list IRow)) (f : IFk) (v : IVal) : Prop :=
  exists cols rows i c, tabs (fk_table f) = Some (cols, rows)
    /\ cols !! i = Some c /\ c_name c = fk_col f /\ occurs_in i v rows.
