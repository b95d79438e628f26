(** * What SQL says an expression means

    An independent meaning of expressions, in standard three-valued logic: [None] is a
    run-time error (division by zero, a number out of range, operands that cannot be
    compared).  Nothing here uses the model's evaluator. *)
From Coq Require Import String ZArith List Bool.
From Verif Require Import ExprModel.
Import ListNotations.
Open Scope Z_scope.

(** Truth values as numbers: FALSE 0, UNKNOWN 1, TRUE 2.  AND is the minimum, OR the
    maximum, NOT the distance from 2. *)
Definition truth (v : val) : option Z :=
  match v with
  | VNull => Some 1
  | VBool b => Some (if b then 2 else 0)
  | _ => None
  end.
Definition of_truth (z : Z) : val :=
  if z =? 2 then VBool true else if z =? 0 then VBool false else VNull.

(** Two comparable, non-NULL values: numbers by value whatever their width, strings
    bytewise whatever their declared type, booleans with FALSE below TRUE. *)
Definition sql_order (a b : val) : option comparison :=
  match a, b with
  | VInt _ x, VInt _ y => Some (Z.compare x y)
  | VBool x, VBool y => Some (Z.compare (Z.b2z x) (Z.b2z y))
  | VVar x, VVar y | VVar x, VChar y | VChar x, VVar y | VChar x, VChar y =>
      Some (String.compare x y)
  | _, _ => None
  end.

Definition holds (op : cmpop) (c : comparison) : bool :=
  match op with
  | Eq => match c with Datatypes.Eq => true | _ => false end
  | Ne => match c with Datatypes.Eq => false | _ => true end
  | Lt => match c with Datatypes.Lt => true | _ => false end
  | Gt => match c with Datatypes.Gt => true | _ => false end
  | Le => match c with Datatypes.Gt => false | _ => true end
  | Ge => match c with Datatypes.Lt => false | _ => true end
  end.

Definition is_null (v : val) : bool := match v with VNull => true | _ => false end.

(** A comparison is UNKNOWN as soon as one side is NULL. *)
Definition sql_cmp (op : cmpop) (a b : val) : option val :=
  if is_null a || is_null b then Some VNull
  else option_map (fun c => VBool (holds op c)) (sql_order a b).

(** [x IN (v1, ..., vn)] is [x = v1 OR ... OR x = vn]; the empty list gives FALSE. *)
Fixpoint sql_in (x : val) (l : list val) : option Z :=
  match l with
  | [] => Some 0
  | v :: r =>
      match sql_cmp Eq x v, sql_in x r with
      | Some c, Some d =>
          match truth c with Some t => Some (Z.max t d) | None => None end
      | _, _ => None
      end
  end.

(** The mathematical result; division truncates toward zero. *)
Definition exact (op : arith) (x y : Z) : option Z :=
  match op with
  | Add => Some (x + y)
  | Sub => Some (x - y)
  | Mul => Some (x * y)
  | Div => if y =? 0 then None else Some (Z.quot x y)
  end.

(** The type of an arithmetic result: the wider of the operand types. *)
Definition join (t u : ity) : ity := if bits t <? bits u then u else t.

Definition fits (t : ity) (z : Z) : Prop := - 2 ^ (bits t - 1) <= z < 2 ^ (bits t - 1).

Definition sql_arith (op : arith) (a b : val) : option val :=
  match a, b with
  | VNull, (VNull | VInt _ _) | VInt _ _, VNull => Some VNull
  | VInt t x, VInt u y =>
      match exact op x y with
      | Some z =>
          if (- 2 ^ (bits (join t u) - 1) <=? z) && (z <? 2 ^ (bits (join t u) - 1))
          then Some (VInt (join t u) z) else None
      | None => None
      end
  | _, _ => None
  end.

Definition sql_neg (v : val) : option val :=
  match v with
  | VNull => Some VNull
  | VInt t z =>
      if (- 2 ^ (bits t - 1) <=? - z) && (- z <? 2 ^ (bits t - 1)) then Some (VInt t (- z)) else None
  | _ => None
  end.

(** [a IS DISTINCT FROM b]: as [<>], but two NULLs are not distinct and a NULL is
    distinct from everything else. *)
Definition sql_distinct (a b : val) : option bool :=
  match is_null a, is_null b with
  | true, true => Some false
  | false, false => option_map (holds Ne) (sql_order a b)
  | _, _ => Some true
  end.

Definition obind {A B} (o : option A) (f : A -> option B) : option B :=
  match o with Some a => f a | None => None end.

Definition sql_is (c : ischeck) (v : val) : option bool :=
  match c with
  | IsNull => Some (is_null v)
  | IsUnknown => option_map (Z.eqb 1) (truth v)
  | IsTrue => option_map (Z.eqb 2) (truth v)
  | IsFalse => option_map (Z.eqb 0) (truth v)
  end.

Definition sql_cast (v : val) (t : tid) : option val :=
  match v, t with
  | VNull, _ => Some VNull
  | VInt _ z, TInt u =>
      if (- 2 ^ (bits u - 1) <=? z) && (z <? 2 ^ (bits u - 1)) then Some (VInt u z) else None
  | (VVar s | VChar s), TVar => Some (VVar s)
  | (VVar s | VChar s), TChar => Some (VChar s)
  | VBool b, TBool => Some (VBool b)
  | _, _ => None
  end.

(** The meaning of an expression in a row. *)
Fixpoint sem (e : expr) (r : row) : option val :=
  match e with
  | ECol i => nth_error r i
  | EConst v => Some v
  | EArith op a b => obind (sem a r) (fun x => obind (sem b r) (fun y => sql_arith op x y))
  | ECmp op a b => obind (sem a r) (fun x => obind (sem b r) (fun y => sql_cmp op x y))
  | EAnd a b =>
      obind (obind (sem a r) truth) (fun x => obind (obind (sem b r) truth) (fun y =>
        Some (of_truth (Z.min x y))))
  | EOr a b =>
      obind (obind (sem a r) truth) (fun x => obind (obind (sem b r) truth) (fun y =>
        Some (of_truth (Z.max x y))))
  | ENot a => obind (obind (sem a r) truth) (fun x => Some (of_truth (2 - x)))
  | ENeg a => obind (sem a r) sql_neg
  | EIs c neg a =>
      obind (sem a r) (fun x => option_map (fun b => VBool (xorb neg b)) (sql_is c x))
  | EIn neg a l =>
      obind (sem a r) (fun x =>
        option_map (fun t => of_truth (if neg then 2 - t else t)) (sql_in x l))
  | EDistinct neg a b =>
      obind (sem a r) (fun x => obind (sem b r) (fun y =>
        option_map (fun d => VBool (xorb neg d)) (sql_distinct x y)))
  | ECase c t f =>
      obind (obind (sem c r) truth) (fun x => if x =? 2 then sem t r else sem f r)
  | ECoalesce a b => obind (sem a r) (fun x => if is_null x then sem b r else Some x)
  | ECast a t => obind (sem a r) (fun x => sql_cast x t)
  end.

(** Values as they are stored: an integer fits its type. *)
Definition stored_val (v : val) : Prop :=
  match v with VInt t z => fits t z | _ => True end.

(** Every constant written in the expression fits its type. *)
Fixpoint stored_consts (e : expr) : Prop :=
  match e with
  | ECol _ => True
  | EConst v => stored_val v
  | EArith _ a b | ECmp _ a b | EAnd a b | EOr a b | EDistinct _ a b | ECoalesce a b =>
      stored_consts a /\ stored_consts b
  | ENot a | ENeg a | EIs _ _ a | ECast a _ => stored_consts a
  | EIn _ a l => stored_consts a /\ Forall stored_val l
  | ECase c t f => stored_consts c /\ stored_consts t /\ stored_consts f
  end.

(** The situations the engine treats differently from SQL, excluded by the partial
    theorem: arithmetic on NULL, CASE on an UNKNOWN condition, IN and IS DISTINCT FROM
    across different types (the IN list is not empty, as the grammar requires), and casts other than INTEGER to BIGINT and between strings. *)
Definition same_kind (a b : val) : Prop :=
  match a, b with
  | VVar _, VChar _ | VChar _, VVar _ => False
  | _, _ => True
  end.
Definition same_type (a b : val) : Prop :=
  match a, b with
  | VInt t _, VInt u _ => t = u
  | _, _ => same_kind a b
  end.
Definition cast_supported (v : val) (t : tid) : Prop :=
  match v, t with
  | VInt t _, TInt u => t = u \/ t = Integer /\ u = BigInt
  | _, _ => True
  end.

Fixpoint supported (e : expr) (r : row) : Prop :=
  match e with
  | ECol _ | EConst _ => True
  | EArith _ a b =>
      supported a r /\ supported b r /\ sem a r <> Some VNull /\ sem b r <> Some VNull
  | ECmp _ a b | EAnd a b | EOr a b | ECoalesce a b => supported a r /\ supported b r
  | ENot a | ENeg a | EIs _ _ a => supported a r
  | EIn _ a l =>
      supported a r /\ l <> [] /\ forall x, sem a r = Some x -> Forall (same_kind x) l
  | EDistinct _ a b =>
      supported a r /\ supported b r /\
      forall x y, sem a r = Some x -> sem b r = Some y -> same_type x y
  | ECase c t f => supported c r /\ supported t r /\ supported f r /\ sem c r <> Some VNull
  | ECast a t => supported a r /\ forall x, sem a r = Some x -> cast_supported x t
  end.

(** The core of a WHERE clause: comparisons, AND, OR, NOT, the IS tests and COALESCE
    over columns and constants. *)
Fixpoint logical (e : expr) : Prop :=
  match e with
  | ECol _ | EConst _ => True
  | ECmp _ a b | EAnd a b | EOr a b | ECoalesce a b => logical a /\ logical b
  | ENot a | EIs _ _ a => logical a
  | _ => False
  end.
