(** * Date and time literals: their values, INSERT and comparisons *)
(** Models src/sql/execution/expressions/typed_string_expression.rs (T), src/sql/execution/plans/values_plan.rs (V), the planning of
    comparisons in src/sql/execution/expression_parser.rs (P) and comparison_expression.rs (C). The chrono parsers are the readings
    of a [calendar]; the float and decimal readers of cast_to are parameters. None is an error. *)
From Coq Require Import ZArith NArith.
From stdpp Require Import list.
From Verif Require Import CastSpec CastModel DlSpec.
Local Open Scope Z_scope.

Section Dl.
Context (cal : calendar).
Context (show_dec : Z -> nat -> list N) (read_dec read_float : list N -> option (Z * nat)) (to_f32 : Z -> nat -> Z * nat).

(** [x as u64] of an i64. *)
Definition as_u64 (z : Z) : Z := z mod 2 ^ 64.
(** src/types_db/value.rs:711-731, 742-757, 773-787: the date and time readers of cast_to. *)
Definition chrono (t : cty) (s : list N) : option Z :=
  match t with
  | TDate => day_of cal s
  | TTime => second_of cal s
  | TTs => as_u64 <$> instant_of cal s
  | _ => None
  end.
Notation cast := (cast_to show_dec read_dec read_float to_f32 chrono).

(** T 156-206, evaluate: DATE (50-74), TIME (77-100), TIMESTAMP (103-153) and the other types; P 414-416 for a plain text. *)
Definition lit_value (l : lit) : option val :=
  match l with
  | Plain s => Some (VVar s)
  | Typed TDate s => (fun d => VTs (as_u64 (86400 * d))) <$> day_of cal s
  | Typed TTime s => VTs <$> second_of cal s
  | Typed TTs s => match parse TTs s with
                   | Some n => Some (VTs n)
                   | None => (fun z => VTs (as_u64 z)) <$> instant_of cal s
                   end
  | Typed t s => if decide (t = TVar) then Some (VVar s) else cast (VVar s) t
  end.
(** P 1692-1822: the declared type. *)
Definition lit_type (l : lit) : cty := match l with Plain _ => TVar | Typed t _ => t end.

(** V 131-157: INSERT of a literal into a column of type [t]. *)
Definition insert_value (t : cty) (l : lit) : option val :=
  match lit_value l with
  | Some v => if decide (type_of v = t) then Some v else cast v t
  | None => None
  end.

(** P 538-655: planning of [column op literal]. The answer is the value of the right side when the row is read (None inside is an
    error then), or an error of planning. *)
Definition is_num (t : cty) : bool := match t with TTiny | TSmall | TInt | TBig | TDec | TFloat => true | _ => false end.
Definition is_text (t : cty) : bool := match t with TVar | TChar => true | _ => false end.
Definition is_day (t : cty) : bool := match t with TDate | TTs => true | _ => false end.
Definition plan_right (t : cty) (l : lit) : option (option val) :=
  let u := lit_type l in
  if bool_decide (t = u) || (is_num t && is_num u) || (is_text t && is_text u) || (is_day t && is_day u) then Some (lit_value l)
  else match l with
       | Plain s => match cast (VVar s) t with Some v => Some (Some v) | None => None end
       | Typed _ _ => None
       end.

(** src/types_db/value.rs:1312-1600 on two values of one type: the derived order of Val. Values that are not whole numbers are left
    to the parameter. *)
Context (other : cop -> val -> val -> bool).
Definition rel (op : cop) (a b : Z) : bool :=
  match op with Eq => a =? b | Ne => negb (a =? b) | Lt => a <? b | Le => a <=? b | Gt => b <? a | Ge => b <=? a end.
Definition cmp_same (op : cop) (v w : val) : bool :=
  match whole v, whole w with Some a, Some b => rel op a b | _, _ => other op v w end.
Definition null (v : val) : bool := match v with VNull _ => true | _ => false end.
(** C 80-146, perform_comparison. *)
Definition perform (op : cop) (v w : val) : option (option bool) :=
  if null v || null w then Some None
  else if decide (type_of v = type_of w) then Some (Some (cmp_same op v w))
  else match cast v (type_of w) with
       | Some v' => Some (Some (cmp_same op v' w))
       | None => match cast w (type_of v) with
                 | Some w' => Some (Some (cmp_same op v w'))
                 | None => None
                 end
       end.
(** A row's value [v] of a column of type [t] compared with a literal. *)
Definition compare (t : cty) (v : val) (op : cop) (l : lit) : option (option bool) :=
  match plan_right t l with
  | Some (Some w) => perform op v w
  | _ => None
  end.
End Dl.
