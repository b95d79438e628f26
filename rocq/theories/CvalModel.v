(** * The constraint validator (src/catalog/constraints.rs)

    Models ConstraintValidator (223-442). Simplifications: values are NULL or integers (of one type), whose
    text is a faithful key (343); the set of violations is reduced to whether there is one; the entries of a
    map are a list, newest first. Rows have as many values as the schema has columns. *)
From Coq Require Import ZArith String.
From stdpp Require Import base list strings.
From Verif Require Import CvalSpec.
Local Open Scope nat_scope.

(** constraints.rs:223-228. *)
Record vstate := VS { vs_unique : list (string * Z); vs_pk : list (string * option Z) }.

(** constraints.rs:340 and 424. *)
Definition col_key (t : string) (c : vcol) : string := (t +:+ ":" +:+ vn c)%string.
Definition pk_key (t : string) : string := (t +:+ ":pk")%string.

Definition contains (e s : string) : bool := match String.index 0 s e with Some _ => true | None => false end.
(** constraints.rs:367-389. *)
Definition check_fails (c : vcol) (v : option Z) : bool :=
  match vck c, v with
  | Some e, Some z =>
      (contains e "price > 0" || contains e "budget > 0" || contains e "salary > 0") && (z <=? 0)%Z
  | _, _ => false
  end.
(** constraints.rs:309-316. *)
Definition null_fails (c : vcol) (v : option Z) : bool := vnn c && match v with None => true | _ => false end.
Definition seen (k : string) (z : Z) (u : list (string * Z)) : bool :=
  existsb (fun e => String.eqb (fst e) k && Z.eqb (snd e) z) u.
(** constraints.rs:330-353: the new map and whether there is a violation. *)
Definition unique_step (t : string) (c : vcol) (v : option Z) (u : list (string * Z)) : list (string * Z) * bool :=
  match vun c, v with
  | true, Some z => if seen (col_key t c) z u then (u, true) else ((col_key t c, z) :: u, false)
  | _, _ => (u, false)
  end.
(** constraints.rs:270-287. *)
Fixpoint val_cols (t : string) (cols : list vcol) (r : vrow) (u : list (string * Z)) : list (string * Z) * bool :=
  match cols, r with
  | c :: cs, v :: vs =>
      let (u1, b) := unique_step t c v u in
      let (u2, bs) := val_cols t cs vs u1 in
      (u2, null_fails c v || b || check_fails c v || bs)
  | _, _ => (u, false)
  end.
(** constraints.rs:410-415, the values of the key columns. *)
Fixpoint pk_values (cols : list vcol) (r : vrow) : vrow :=
  match cols, r with
  | c :: cs, v :: vs => if vpk c then v :: pk_values cs vs else pk_values cs vs
  | _, _ => []
  end.
Fixpoint pk_find (k : string) (l : list (string * option Z)) : option (option Z) :=
  match l with
  | [] => None
  | (k', v) :: l => if String.eqb k' k then Some v else pk_find k l
  end.
(** constraints.rs:404-442. *)
Definition pk_step (t : string) (cols : list vcol) (r : vrow) (l : list (string * option Z)) : list (string * option Z) * bool :=
  match pk_values cols r with
  | [v] =>
      match pk_find (pk_key t) l with
      | Some v' => if decide (v' = v) then (l, true) else ((pk_key t, v) :: l, false)
      | None => ((pk_key t, v) :: l, false)
      end
  | _ => (l, false)
  end.
(** constraints.rs:262-299: the new state and whether the row is accepted. *)
Definition validate (t : string) (cols : list vcol) (r : vrow) (s : vstate) : vstate * bool :=
  let (u, b1) := val_cols t cols r (vs_unique s) in
  let (l, b2) := pk_step t cols r (vs_pk s) in
  (VS u l, negb (b1 || b2)).

(** A history of rows of one table; rows and verdicts. *)
Fixpoint validate_all (t : string) (cols : list vcol) (rs : list vrow) (s : vstate) : vstate * list bool :=
  match rs with
  | [] => (s, [])
  | r :: rs => let (s1, b) := validate t cols r s in
               let (s2, bs) := validate_all t cols rs s1 in (s2, b :: bs)
  end.
Definition vs0 : vstate := VS [] [].
