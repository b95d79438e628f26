(** * Array literals, subscripts and slices *)
(** Models src/sql/execution/expressions/subscript_expression.rs (S), array_expression.rs (A) and their planning in
    src/sql/execution/expression_parser.rs (P). Simplifications: a subscript of a STRUCT or JSON value becomes a field access,
    which is not modelled ([plan] gives None); [usize] is 64 bits; integer negation wraps (a release build). *)
From Coq Require Import ZArith NArith.
From stdpp Require Import list.
From Verif Require Import CastSpec ArrSpec.
Local Open Scope Z_scope.

(** src/types_db/type_id.rs. *)
Inductive aty := ATy (t : cty) | ABin | AJson | AUuid | AVec | AArr | AEnum | APoint | AStruct | AInvalid.
Global Instance aty_dec : EqDecision aty. Proof. solve_decision. Defined.

(** src/types_db/types.rs:50-122. *)
Definition coercible (t from : aty) : bool :=
  match t with
  | AInvalid => false
  | ATy TBool => true
  | ATy (TTiny | TSmall | TInt | TBig | TDec | TFloat) =>
      match from with ATy (TTiny | TSmall | TInt | TBig | TDec | TFloat | TVar) => true | _ => false end
  | ATy TTs => match from with ATy (TVar | TTs) => true | _ => false end
  | ATy TDate => match from with ATy (TVar | TDate | TTs) => true | _ => false end
  | ATy TTime => match from with ATy (TVar | TTime) => true | _ => false end
  | ATy TItv => match from with ATy (TVar | TItv) => true | _ => false end
  | ATy TVar => match from with ATy _ | AUuid | AJson => true | _ => false end
  | ATy TChar => match from with ATy _ => true | _ => false end
  | AJson => match from with AJson | ATy TVar => true | _ => false end
  | AUuid => match from with AUuid | ATy TVar => true | _ => false end
  | AEnum => match from with AEnum | ATy TInt | ATy TVar => true | _ => false end
  | _ => bool_decide (from = t)
  end.

(** [x as i32] of a wider integer, and [x as usize] of an i32. *)
Definition i32 (z : Z) : Z := (z + 2 ^ 31) mod 2 ^ 32 - 2 ^ 31.
Definition usize (z : Z) : Z := z mod 2 ^ 64.
(** S 77-146 (163-204, 212-253): the i32 an index is converted to. *)
Definition index_value (v : aval) : option Z :=
  match v with
  | Sc (VTiny z) | Sc (VSmall z) | Sc (VInt z) => Some z
  | Sc (VBig z) => Some (i32 z)
  | _ => None
  end.
Section Arr.
Context {R : Type}.
(** S 77-156; None is an error. *)
Definition subscript (l : list aval) (v : aval) : option aval :=
  match index_value v with
  | None => None
  | Some i =>
      let n := i32 (len l) in
      match (if i <? 0 then if n <? i32 (- i) then None else Some (usize (i32 (n + i))) else Some (usize i)) with
      | None => None
      | Some k => if len l <=? k then None else l !! Z.to_nat k
      end
  end.
(** S 163-204 and 212-253. *)
Definition bound (l : list aval) (v : aval) : option Z :=
  match index_value v with
  | None => None
  | Some i =>
      let n := i32 (len l) in
      Some (if i <? 0 then if n <? i32 (- i) then 0 else usize (i32 (n + i)) else usize i)
  end.
(** S 259-265. *)
Definition cut (l : list aval) (s e : Z) : list aval :=
  if (s <=? e) && (e <=? len l) then take (Z.to_nat (e - s)) (drop (Z.to_nat s) l) else [].

(** Planned expressions. A leaf is an expression of another kind with its return type and the function from rows to values it
    computes (None is an error). The join form (S 270-, A 52-63) is the same on pairs of rows. *)
Inductive pexpr :=
| PLeaf (t : aty) (f : R -> option aval)
| PArray (es : list pexpr)
| PIndex (e i : pexpr)
| PSlice (e : pexpr) (s t : option pexpr).
(** P 1992, 2104, 2225. *)
Definition ptype (e : pexpr) : aty :=
  match e with PLeaf t _ => t | PArray _ => AVec | PIndex _ _ => AInvalid | PSlice _ _ _ => AVec end.
(** A 27-43, S 58-268. *)
Fixpoint eval (e : pexpr) (r : R) : option aval :=
  match e with
  | PLeaf _ f => f r
  | PArray es =>
      match (fix all (es : list pexpr) : option (list aval) :=
               match es with
               | [] => Some []
               | e :: es => match eval e r with
                            | Some v => match all es with Some vs => Some (v :: vs) | None => None end
                            | None => None
                            end
               end) es with
      | Some vs => Some (Vec vs)
      | None => None
      end
  | PIndex e i =>
      match eval e r with
      | Some (Vec l) => match eval i r with Some v => subscript l v | None => None end
      | _ => None
      end
  | PSlice e s t =>
      match eval e r with
      | Some (Vec l) =>
          match match s with Some s => match eval s r with Some v => bound l v | None => None end | None => Some 0 end with
          | None => None
          | Some a =>
              match match t with Some t => match eval t r with Some v => bound l v | None => None end | None => Some (len l) end with
              | None => None
              | Some b => Some (Vec (cut l a b))
              end
          end
      | _ => None
      end
  end.

(** Expressions as they are written; a bad one is one that cannot be planned (an unknown column, for instance). *)
Inductive src :=
| XLeaf (t : aty) (f : R -> option aval)
| XBad
| XArray (es : list src)
| XIndex (e i : src)
| XSlice (e : src) (s t stride : option src).
(** P 1967-1986: the type check of the elements. *)
Fixpoint check (t : aty) (es : list pexpr) : bool :=
  match es with
  | [] => true
  | e :: es => if decide (t = AInvalid) then check (ptype e) es else coercible t (ptype e) && check t es
  end.
Definition const (z : Z) : pexpr := PLeaf (ATy TInt) (fun _ => Some (Sc (VInt z))).
(** P 1961-1994, 2054-2234; a chain [a[i][j]] is [XIndex (XIndex a i) j]. *)
Fixpoint plan (e : src) : option pexpr :=
  match e with
  | XLeaf t f => Some (PLeaf t f)
  | XBad => None
  | XArray es =>
      match (fix all (es : list src) : option (list pexpr) :=
               match es with
               | [] => Some []
               | e :: es => match plan e with
                            | Some p => match all es with Some ps => Some (p :: ps) | None => None end
                            | None => None
                            end
               end) es with
      | Some ps => if check AInvalid ps then Some (PArray ps) else None
      | None => None
      end
  | XIndex e i =>
      match plan e, plan i with
      | Some p, Some q => match ptype p with AVec | AArr => Some (PIndex p q) | _ => None end
      | _, _ => None
      end
  | XSlice e s t _ =>
      match plan e with
      | Some p => Some (PSlice p (match s with Some s => Some (match plan s with Some q => q | None => const 0 end) | None => None end)
                                 (match t with Some t => Some (match plan t with Some q => q | None => const (-1) end) | None => None end))
      | None => None
      end
  end.
Definition run (e : src) (r : R) : option aval := match plan e with Some p => eval p r | None => None end.
End Arr.
Arguments src : clear implicits.
Arguments pexpr : clear implicits.
