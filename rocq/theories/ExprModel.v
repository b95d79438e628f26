(** * Values and SQL expressions

    Models src/types_db/value.rs (comparison, cast and ordering of values) and the
    expression evaluators in src/sql/execution/expressions/.

    Simplifications, for the whole file:
    - Only NULL, booleans, the four integer types, VARCHAR and CHAR values are modelled.
      Floats, decimals, temporal values, binary, JSON, UUID, enums, points, vectors and
      structs are not.
    - A value's type id is the one its constructor has (src/types_db/value.rs:53-80);
      NULLs carry no type.
    - Integers are mathematical integers; [in_range] says which of them a type holds.
    - Strings are byte strings; Rust compares strings bytewise. *)
From Coq Require Import String Ascii ZArith List Bool.
From Coq Require Import Decimal DecimalString.
Import ListNotations.
Open Scope Z_scope.

(** The integer types of src/types_db/type_id.rs:12-36, in the order of that enum. *)
Inductive ity := TinyInt | SmallInt | Integer | BigInt.

(** Width in bits: i8, i16, i32, i64 in src/types_db/value.rs:11-17. *)
Definition bits (t : ity) : Z :=
  match t with TinyInt => 8 | SmallInt => 16 | Integer => 32 | BigInt => 64 end.

(** The range check each conversion of src/types_db/value.rs:487-585 performs and
    each checked_* operation of Rust performs. *)
Definition in_range (t : ity) (z : Z) : bool :=
  (- 2 ^ (bits t - 1) <=? z) && (z <? 2 ^ (bits t - 1)).

(** src/types_db/value.rs:11-34, enum Val, restricted as said above. *)
Inductive val :=
| VNull
| VBool (b : bool)
| VInt (t : ity) (z : Z)
| VVar (s : string)
| VChar (s : string).

(** A row is the vector of values of a tuple: src/storage/table/tuple.rs:208-651. *)
Definition row := list val.

(** src/types_db/type_id.rs:12-36, restricted. *)
Inductive tid := TBool | TInt (t : ity) | TVar | TChar.

(** src/types_db/value.rs:1308, get_type_id; [None] for NULL. *)
Definition type_of (v : val) : option tid :=
  match v with
  | VNull => None
  | VBool _ => Some TBool
  | VInt t _ => Some (TInt t)
  | VVar _ => Some TVar
  | VChar _ => Some TChar
  end.

(** Derived PartialEq of src/types_db/type_id.rs:12. *)
Definition ity_rank (t : ity) : N :=
  match t with TinyInt => 1 | SmallInt => 2 | Integer => 3 | BigInt => 4 end%N.
Definition tid_rank (t : tid) : N :=
  match t with TBool => 0 | TInt t => ity_rank t | TVar => 11 | TChar => 12 end%N.

(** src/types_db/types.rs:13-18. *)
Inductive cmpbool := CmpFalse | CmpTrue | CmpNull.

(** From<bool> for CmpBool. *)
Definition of_bool (b : bool) : cmpbool := if b then CmpTrue else CmpFalse.

(** The six comparisons that [compare_*] implement. *)
Inductive cmpop := Eq | Ne | Lt | Le | Gt | Ge.

(** Rust's ==, !=, <, <=, >, >= on two totally ordered payloads, given their ordering. *)
Definition by_order (op : cmpop) (c : comparison) : bool :=
  match op, c with
  | Eq, Datatypes.Eq => true
  | Ne, (Datatypes.Lt | Datatypes.Gt) => true
  | Lt, Datatypes.Lt => true
  | Le, (Datatypes.Lt | Datatypes.Eq) => true
  | Gt, Datatypes.Gt => true
  | Ge, (Datatypes.Gt | Datatypes.Eq) => true
  | _, _ => false
  end.

(** false < true, as Rust orders bool. *)
Definition bool_compare (a b : bool) : comparison :=
  match a, b with
  | false, true => Datatypes.Lt
  | true, false => Datatypes.Gt
  | _, _ => Datatypes.Eq
  end.

(** What a comparison answers for two values of different, non-numeric types:
    src/types_db/value.rs:1355-1356, 1406-1407, 1459-1460, 1514-1515, 1569-1570, 1623-1624. *)
Definition type_differs (op : cmpop) : bool :=
  match op with Ne => true | _ => false end.

(** src/types_db/value.rs:1312-1630: compare_equals, compare_not_equals,
    compare_less_than, compare_less_than_equals, compare_greater_than and
    compare_greater_than_equals.  The pairs of integer widths, which the code lists
    one by one and widens before comparing, are one case here. *)
Definition compare_op (op : cmpop) (a b : val) : cmpbool :=
  match a, b with
  | VNull, _ => CmpNull
  | _, VNull => CmpNull
  | VInt _ x, VInt _ y => of_bool (by_order op (Z.compare x y))
  | VBool x, VBool y => of_bool (by_order op (bool_compare x y))
  | VVar x, VVar y => of_bool (by_order op (String.compare x y))
  | VChar x, VChar y => of_bool (by_order op (String.compare x y))
  | _, _ => of_bool (type_differs op)
  end.

(** Rust's ToString for integers, used by src/types_db/value.rs:474-606. *)
Definition show_int (z : Z) : string := NilZero.string_of_int (Z.to_int z).

(** ToString for bool. *)
Definition show_bool (b : bool) : string := if b then "true" else "false".

(** One decimal digit of Rust's integer parser. *)
Definition digit (c : ascii) : option Z :=
  let n := Z.of_N (N_of_ascii c) in
  if (48 <=? n) && (n <=? 57) then Some (n - 48) else None.

(** The digits of a number, most significant first. *)
Fixpoint parse_digits (s : string) (acc : Z) : option Z :=
  match s with
  | EmptyString => Some acc
  | String c r =>
      match digit c with
      | Some d => parse_digits r (10 * acc + d)
      | None => None
      end
  end.

(** Rust's str::parse::<iN>, used by src/types_db/value.rs:677-692 and 816-831:
    an optional sign and at least one digit, and the result must fit the type. *)
Definition parse_int (t : ity) (s : string) : option Z :=
  let r := match s with
           | EmptyString => None
           | String "-" EmptyString => None
           | String "+" EmptyString => None
           | String "-" d => option_map Z.opp (parse_digits d 0)
           | String "+" d => parse_digits d 0
           | d => parse_digits d 0
           end in
  match r with
  | Some z => if in_range t z then Some z else None
  | None => None
  end.

(** ASCII part of str::to_lowercase, enough for the words compared below. *)
Definition lower (c : ascii) : ascii :=
  let n := N_of_ascii c in
  if (65 <=? n)%N && (n <=? 90)%N then ascii_of_N (n + 32) else c.
Fixpoint lower_string (s : string) : string :=
  match s with EmptyString => EmptyString | String c r => String (lower c) (lower_string r) end.

(** src/types_db/value.rs:668-676 and 807-815. *)
Definition parse_bool (s : string) : option bool :=
  let l := lower_string s in
  if existsb (String.eqb l) ["true"; "t"; "1"; "yes"; "y"]%string then Some true
  else if existsb (String.eqb l) ["false"; "f"; "0"; "no"; "n"; ""]%string then Some false
  else None.

(** src/types_db/value.rs:408-1010, cast_to, between the modelled types. *)
Definition cast_to (v : val) (t : tid) : option val :=
  match v, t with
  | VNull, _ => Some VNull
  | VBool b, TBool => Some (VBool b)
  | VBool b, TInt u => Some (VInt u (if b then 1 else 0))
  | VBool b, TVar => Some (VVar (show_bool b))
  | VBool b, TChar => Some (VChar (show_bool b))
  | VInt _ z, TBool => Some (VBool (negb (z =? 0)))
  | VInt _ z, TInt u => if in_range u z then Some (VInt u z) else None
  | VInt _ z, TVar => Some (VVar (show_int z))
  | VInt _ z, TChar => Some (VChar (show_int z))
  | VVar s, TVar => Some (VVar s)
  | VVar s, TChar => Some (VChar s)
  | VVar s, TBool => option_map VBool (parse_bool s)
  | VVar s, TInt u => option_map (VInt u) (parse_int u s)
  | VChar s, TChar => Some (VChar s)
  | VChar s, TVar => Some (VVar s)
  | VChar s, TBool => option_map VBool (parse_bool s)
  | VChar s, TInt u => option_map (VInt u) (parse_int u s)
  end.

(** TypeId equality. *)
Definition tid_eqb (a b : tid) : bool := N.eqb (tid_rank a) (tid_rank b).

(** src/types_db/value.rs:2310-2333, PartialEq for Value. *)
Definition val_eqb (a b : val) : bool :=
  match a, b with
  | VNull, VNull => true
  | VBool x, VBool y => Bool.eqb x y
  | VInt t x, VInt u y => N.eqb (ity_rank t) (ity_rank u) && (x =? y)
  | VVar x, VVar y => String.eqb x y
  | VChar x, VChar y => String.eqb x y
  | _, _ => false
  end.

(** src/types_db/value.rs:2337-2369, PartialOrd for Value.  Always [Some] on the
    modelled values, so the option is left out. *)
Definition val_cmp (a b : val) : comparison :=
  match a, b with
  | VNull, VNull => Datatypes.Eq
  | VNull, _ => Datatypes.Lt
  | _, VNull => Datatypes.Gt
  | VBool x, VBool y => bool_compare x y
  | VInt t x, VInt u y =>
      if N.eqb (ity_rank t) (ity_rank u) then Z.compare x y
      else N.compare (ity_rank t) (ity_rank u)
  | VVar x, VVar y => String.compare x y
  | VChar x, VChar y => String.compare x y
  | _, _ =>
      match type_of a, type_of b with
      | Some s, Some t => N.compare (tid_rank s) (tid_rank t)
      | _, _ => Datatypes.Eq
      end
  end.

(** A computation that may end with an ExpressionError. *)
Inductive res (A : Type) := Ok (a : A) | Err.
Arguments Ok {A} a.
Arguments Err {A}.

Definition bind {A B} (r : res A) (f : A -> res B) : res B :=
  match r with Ok a => f a | Err => Err end.

(** src/sql/execution/expressions/comparison_expression.rs:80-146, perform_comparison,
    without IS NOT NULL. *)
Definition perform_comparison (op : cmpop) (l r : val) : res cmpbool :=
  match type_of l, type_of r with
  | Some tl, Some tr =>
      if tid_eqb tl tr then Ok (compare_op op l r)
      else match cast_to l tr with
           | Some l2 => Ok (compare_op op l2 r)
           | None =>
               match cast_to r tl with
               | Some r2 => Ok (compare_op op l r2)
               | None => Err
               end
           end
  | _, _ => Ok CmpNull
  end.

(** src/types_db/value.rs:2217-2225 and comparison_expression.rs:155-159. *)
Definition of_cmpbool (c : cmpbool) : val :=
  match c with CmpTrue => VBool true | CmpFalse => VBool false | CmpNull => VNull end.

(** src/sql/execution/expressions/logic_expression.rs:98-109. *)
Definition as_cmpbool (v : val) : cmpbool :=
  match v with VBool b => of_bool b | _ => CmpNull end.

(** src/sql/execution/expressions/logic_expression.rs:111-117. *)
Definition perform_and (l r : cmpbool) : cmpbool :=
  match l, r with
  | CmpFalse, _ => CmpFalse
  | _, CmpFalse => CmpFalse
  | CmpTrue, CmpTrue => CmpTrue
  | _, _ => CmpNull
  end.

(** src/sql/execution/expressions/logic_expression.rs:119-125. *)
Definition perform_or (l r : cmpbool) : cmpbool :=
  match l, r with
  | CmpTrue, _ => CmpTrue
  | _, CmpTrue => CmpTrue
  | CmpFalse, CmpFalse => CmpFalse
  | _, _ => CmpNull
  end.

(** src/sql/execution/expressions/unary_op_expression.rs:77-87, NOT. *)
Definition perform_not (v : val) : res val :=
  match v with
  | VNull => Ok VNull
  | VBool b => Ok (VBool (negb b))
  | _ => Err
  end.

Inductive arith := Add | Sub | Mul | Div.

(** The wider of two integer types; arithmetic_expression.rs:143-452 lists the pairs. *)
Definition wider (t u : ity) : ity :=
  if (ity_rank t <? ity_rank u)%N then u else t.

(** src/sql/execution/expressions/arithmetic_expression.rs:139-452 and 748: checked
    integer arithmetic in the wider type, division by zero and overflow are errors,
    and so is every other pair of operands, NULL included. *)
Definition perform_arith (op : arith) (l r : val) : res val :=
  match l, r with
  | VInt t x, VInt u y =>
      let w := wider t u in
      let z := match op with
               | Add => Some (x + y)
               | Sub => Some (x - y)
               | Mul => Some (x * y)
               | Div => if y =? 0 then None else Some (Z.quot x y)
               end in
      match z with
      | Some z => if in_range w z then Ok (VInt w z) else Err
      | None => Err
      end
  | _, _ => Err
  end.

(** Two's complement: what an overflowing operation of width [bits t] leaves in a
    release build (Cargo.toml's release profile has overflow-checks off; in a debug
    build the operation panics instead). *)
Definition wrap (t : ity) (z : Z) : Z :=
  (z + 2 ^ (bits t - 1)) mod 2 ^ bits t - 2 ^ (bits t - 1).

(** src/sql/execution/expressions/unary_op_expression.rs:89-103, unary minus: the
    unchecked Rust [-i]. *)
Definition perform_neg (v : val) : res val :=
  match v with
  | VNull => Ok VNull
  | VInt t z => Ok (VInt t (wrap t (- z)))
  | _ => Err
  end.

(** src/sql/execution/expressions/is_check_expression.rs:12-18. *)
Inductive ischeck := IsTrue | IsFalse | IsUnknown | IsNull.

(** src/sql/execution/expressions/is_check_expression.rs:44-81. *)
Definition perform_is (c : ischeck) (neg : bool) (v : val) : res val :=
  match c, v with
  | IsTrue, VBool b => Ok (VBool (xorb neg b))
  | IsTrue, VNull => Ok (VBool neg)
  | IsTrue, _ => Err
  | IsFalse, VBool b => Ok (VBool (xorb neg (negb b)))
  | IsFalse, VNull => Ok (VBool neg)
  | IsFalse, _ => Err
  | _, VNull => Ok (VBool (negb neg))
  | _, _ => Ok (VBool neg)
  end.

(** The loop of src/sql/execution/expressions/in_expression.rs:134-205: [found] is the
    [true] answer, [has_null] the accumulator.  The narrowing of a list value to the
    type of the left value (142-190) does not change what compare_equals answers for
    integers, because that comparison is by numeric value; it is left out. *)
Fixpoint in_list (v : val) (l : list val) (has_null : bool) : val :=
  match l with
  | [] => if has_null then VNull else VBool false
  | x :: r =>
      match compare_op Eq v x with
      | CmpTrue => VBool true
      | CmpFalse => in_list v r has_null
      | CmpNull => in_list v r true
      end
  end.

(** src/sql/execution/expressions/in_expression.rs:125-129: a NULL left value. *)
Definition check_in (v : val) (l : list val) : val :=
  match v with VNull => VNull | _ => in_list v l false end.

(** src/sql/execution/expressions/is_distinct_expression.rs:48-60. *)
Definition is_distinct (l r : val) : bool :=
  match l, r with
  | VNull, VNull => false
  | VNull, _ => true
  | _, VNull => true
  | _, _ => negb (val_eqb l r)
  end.

(** src/sql/execution/expressions/cast_expression.rs:68-152, CAST without a format. *)
Definition perform_cast (v : val) (t : tid) : res val :=
  match v, t with
  | VNull, _ => Ok VNull
  | VInt Integer z, TInt BigInt => Ok (VInt BigInt z)
  | VVar s, TChar => Ok (VChar s)
  | VChar s, TVar => Ok (VVar s)
  | _, _ =>
      match type_of v with
      | Some u => if tid_eqb u t then Ok v else Err
      | None => Err
      end
  end.

(** The expressions the SQL parser builds (src/sql/execution/expression_parser.rs:298-915
    and 1277) that are modelled.  BETWEEN is parsed into comparisons and AND/OR (786-834).
    [ECase c t e] is CASE WHEN c THEN t ELSE e; a CASE with several WHENs is evaluated in
    order (case_expression.rs:112-157), so it is [ECase c1 t1 (ECase c2 t2 ...)].
    [ECoalesce a b] likewise nests to the right (coalesce_expression.rs:50-59). *)
Inductive expr :=
| ECol (i : nat)
| EConst (v : val)
| EArith (op : arith) (a b : expr)
| ECmp (op : cmpop) (a b : expr)
| EAnd (a b : expr)
| EOr (a b : expr)
| ENot (a : expr)
| ENeg (a : expr)
| EIs (c : ischeck) (neg : bool) (a : expr)
| EIn (neg : bool) (a : expr) (l : list val)
| EDistinct (neg : bool) (a b : expr)
| ECase (c t e : expr)
| ECoalesce (a b : expr)
| ECast (a : expr) (t : tid).

(** ExpressionOps::evaluate:
    column_value_expression.rs:51-61, arithmetic_expression.rs:139, comparison_expression.rs:150-167,
    logic_expression.rs:129-146, unary_op_expression.rs:73-109, is_check_expression.rs:44-81,
    in_expression.rs:228-252, is_distinct_expression.rs:44-61, case_expression.rs:96-158,
    coalesce_expression.rs:50-59, cast_expression.rs:68-152.
    The list of IN holds constants (the parser evaluates it to a vector). *)
Fixpoint eval (e : expr) (r : row) : res val :=
  match e with
  | ECol i => match nth_error r i with Some v => Ok v | None => Err end
  | EConst v => Ok v
  | EArith op a b => bind (eval a r) (fun x => bind (eval b r) (fun y => perform_arith op x y))
  | ECmp op a b =>
      bind (eval a r) (fun x => bind (eval b r) (fun y =>
        bind (perform_comparison op x y) (fun c => Ok (of_cmpbool c))))
  | EAnd a b =>
      bind (eval a r) (fun x => bind (eval b r) (fun y =>
        Ok (of_cmpbool (perform_and (as_cmpbool x) (as_cmpbool y)))))
  | EOr a b =>
      bind (eval a r) (fun x => bind (eval b r) (fun y =>
        Ok (of_cmpbool (perform_or (as_cmpbool x) (as_cmpbool y)))))
  | ENot a => bind (eval a r) perform_not
  | ENeg a => bind (eval a r) perform_neg
  | EIs c neg a => bind (eval a r) (perform_is c neg)
  | EIn neg a l =>
      bind (eval a r) (fun x =>
        if neg then perform_not (check_in x l) else Ok (check_in x l))
  | EDistinct neg a b =>
      bind (eval a r) (fun x => bind (eval b r) (fun y =>
        Ok (VBool (xorb neg (is_distinct x y)))))
  | ECase c t f =>
      bind (eval c r) (fun x =>
        match x with
        | VBool true => eval t r
        | VBool false => eval f r
        | _ => Err
        end)
  | ECoalesce a b =>
      bind (eval a r) (fun x => match x with VNull => eval b r | _ => Ok x end)
  | ECast a t => bind (eval a r) (fun x => perform_cast x t)
  end.

(** src/sql/execution/expression_parser.rs:786-834: [e BETWEEN lo AND hi]. *)
Definition e_between (neg : bool) (e lo hi : expr) : expr :=
  if neg then EOr (ECmp Lt e lo) (ECmp Gt e hi)
  else EAnd (ECmp Ge e lo) (ECmp Le e hi).

(** src/sql/execution/executors/filter_executor.rs:186-216, apply_where_filter. *)
Definition where_pass (e : expr) (r : row) : bool :=
  match eval e r with
  | Ok (VBool b) => b
  | _ => false
  end.
