(** * What the executors should return

    Stated on plain lists of rows; nothing here uses the executors' definitions. *)
From Coq Require Import ZArith List Bool Sorted Permutation String.
From Verif Require Import ExprModel ExprSpec.
Import ListNotations.
Local Open Scope nat_scope.

(** The first occurrence of every element, in order. *)
Fixpoint first_occurrences {T} (eq_dec : forall a b : T, {a = b} + {a <> b}) (l : list T) : list T :=
  match l with
  | [] => []
  | x :: r => x :: filter (fun y => if eq_dec x y then false else true) (first_occurrences eq_dec r)
  end.

(** Equality of rows is decidable. *)
Definition val_eq_dec (a b : val) : {a = b} + {a <> b}.
Proof. repeat decide equality. Defined.
Definition row_eq_dec : forall a b : row, {a = b} + {a <> b} := list_eq_dec val_eq_dec.

(** The value [x] sorts strictly below [y]: NULL below everything else, otherwise by the
    SQL order. *)
Definition vless (x y : val) : Prop :=
  (is_null x = true /\ is_null y = false) \/ sql_order x y = Some Datatypes.Lt.

(** [ORDER BY specs] puts [a] strictly before [b]: at the first sort column where they
    differ, [a] has the smaller value (the larger for DESC). *)
Definition before (specs : list (expr * bool)) (a b : row) : Prop :=
  exists pre e desc post x y,
    specs = pre ++ (e, desc) :: post /\
    (forall e2 d2, In (e2, d2) pre -> eval e2 a = eval e2 b) /\
    eval e a = Ok x /\ eval e b = Ok y /\
    if desc : bool then vless y x else vless x y.

(** Two rows with the same sort keys. *)
Definition tied (specs : list (expr * bool)) (a b : row) : Prop :=
  forall e d, In (e, d) specs -> eval e a = eval e b.

(** [s] is [l] sorted by [specs], ties left in the order they had. *)
Record is_sorted_version (specs : list (expr * bool)) (l s : list row) : Prop := {
  sv_perm : Permutation l s;
  sv_sorted : StronglySorted (fun a b => ~ before specs b a) s;
  sv_stable : forall P : row -> bool,
    (forall a b, P a = true -> P b = true -> tied specs a b) -> filter P s = filter P l;
}.

(** Every sort expression evaluates on every row, to values of one type per expression
    (or NULL): what a typed table gives. *)
Definition sortable (specs : list (expr * bool)) (l : list row) : Prop :=
  forall e d, In (e, d) specs ->
    (forall a, In a l -> exists x, eval e a = Ok x) /\
    (forall a b x y, In a l -> In b l -> eval e a = Ok x -> eval e b = Ok y ->
       is_null x = true \/ is_null y = true \/ type_of x = type_of y).

(** The types whose values DISTINCT renders through their Debug text, and what is asked of
    that text: it tells values apart. *)
Definition debug_rendered (v : val) : bool :=
  match v with VInt (TinyInt | SmallInt) _ | VChar _ => true | _ => false end.
Definition dbg_faithful (dbg : val -> String.string) : Prop :=
  forall a b, debug_rendered a = true -> debug_rendered b = true -> dbg a = dbg b -> a = b.

(** Rows of a table with the given column types, no NULLs, values that fit their type and
    texts shorter than 4 GiB. *)
Definition plain_value (dbg : val -> String.string) (t : tid) (v : val) : Prop :=
  type_of v = Some t /\ stored_val v /\
  match v with VVar s => (Z.of_nat (String.length s) < 2 ^ 32)%Z | _ => True end /\
  (debug_rendered v = true -> (Z.of_nat (String.length (dbg v)) < 2 ^ 32)%Z).
Definition plain_row (dbg : val -> String.string) (tys : list tid) (r : row) : Prop :=
  Forall2 (plain_value dbg) tys r.
