(** * CASE (src/sql/execution/expressions/case_expression.rs, literal_value_expression.rs:27-56)

    Simplifications: a subexpression is its return type and what it evaluates to on a row (or on the two rows
    of a join); values and their == are those of VordModel.v; the messages of errors and the log are left out. *)
From Coq Require Import ZArith.
From stdpp Require Import base list numbers.
From Verif Require Import VordSpec VordModel CaseSpec.
Local Open Scope nat_scope.

Record expr := Expr { ety : nat; ev : list value -> out; evj : list value -> list value -> out }.
(** case_expression.rs:14-27. *)
Record case := Case {
  cbase : option expr; cwhens : list expr; cthens : list expr; celse : option expr; cty : nat; children : list expr }.

(** case_expression.rs:67-92. *)
Definition determine_return_type (thens : list expr) (els : option expr) : option nat :=
  match map ety thens ++ match els with Some e => [ety e] | None => [] end with
  | [] => None
  | t :: ts => if forallb (Nat.eqb t) ts then Some t else None
  end.
(** case_expression.rs:30-65; None is an error. *)
Definition case_new (base : option expr) (whens thens : list expr) (els : option expr) : option case :=
  if negb (length whens =? length thens) then None
  else match whens with
  | [] => None
  | _ :: _ =>
      match determine_return_type thens els with
      | None => None
      | Some ty =>
          Some (Case base whens thens els ty
                  (match base with Some e => [e] | None => [] end ++ whens ++ thens ++ match els with Some e => [e] | None => [] end))
      end
  end.

Definition null_value : value := Val 20 None XNull.
(** case_expression.rs:112-143, 175-194: the loop over the conditions from index i on; run evaluates a subexpression. *)
Fixpoint branches (run : expr -> out) (base : option value) (thens : list expr) (els : option expr) (i : nat) (whens : list expr) : out :=
  match whens with
  | [] => match els with Some e => run e | None => OVal null_value end
  | w :: whens =>
      match run w with
      | OVal v =>
          let go (matches : bool) :=
            if matches then match thens !! i with Some e => run e | None => OPanic end
            else branches run base thens els (S i) whens in
          match base with
          | Some b => go (veq b v)
          | None => match v with
                    | Val _ _ (XInt KBoolean z) => go (negb (Z.eqb z 0))
                    | _ => OErr
                    end
          end
      | o => o
      end
  end.
Definition case_run (run : expr -> out) (c : case) : out :=
  match cbase c with
  | Some e => match run e with
              | OVal b => branches run (Some b) (cthens c) (celse c) 0 (cwhens c)
              | o => o
              end
  | None => branches run None (cthens c) (celse c) 0 (cwhens c)
  end.
(** case_expression.rs:96-158; all columns of the schema are read first, for the log (100-102). *)
Definition evaluate (c : case) (columns : nat) (row : list value) : out :=
  if length row <? columns then OPanic else case_run (fun e => ev e row) c.
(** case_expression.rs:160-200. *)
Definition evaluate_join (c : case) (l r : list value) : out := case_run (fun e => evj e l r) c.

(** case_expression.rs:214-242; None is a panic. *)
Definition clone_with_children (c : case) (ch : list expr) : option case :=
  let n := length (cwhens c) in
  match match cbase c, ch with
        | Some _, e :: _ => Some (Some e, 1)
        | Some _, [] => None
        | None, _ => Some (None, 0)
        end with
  | None => None
  | Some (base, offset) =>
      if length ch <? offset + n + n then None
      else case_new base (take n (drop offset ch)) (take n (drop (offset + n) ch)) (ch !! (offset + n + n))
  end.

(** literal_value_expression.rs:34-48: the type of a number without a point (i8, i16, i32, i64). *)
Definition literal (z : Z) : option value :=
  if (Z.leb (-128) z && Z.leb z 127)%bool then Some (Val 1 None (XInt KTinyInt z))
  else if (Z.leb (-32768) z && Z.leb z 32767)%bool then Some (Val 2 None (XInt KSmallInt z))
  else if (Z.leb (-2147483648) z && Z.leb z 2147483647)%bool then Some (Val 3 None (XInt KInteger z))
  else if (Z.leb (-9223372036854775808) z && Z.leb z 9223372036854775807)%bool then Some (Val 4 None (XInt KBigInt z))
  else None.
Definition literal_expr (v : value) : expr :=
  match v with Val ty _ _ => Expr ty (fun _ => OVal v) (fun _ _ => OVal v) end.
