(** * Field access on structs and JSON texts *)
(** Models src/sql/execution/expressions/map_access_expression.rs (M), struct_expression.rs (T) and their planning in
    src/sql/execution/expression_parser.rs (P). The JSON reader and writer (serde_json::from_str, to_string) are the parameters
    [reads] and [writes]. None is an error. Simplification: the members of an object are a list (serde's Map). *)
From Coq Require Import ZArith NArith.
From stdpp Require Import list.
From Verif Require Import CastSpec CastModel ArrSpec ArrModel JfSpec.
Local Open Scope Z_scope.

Section Access.
Context (reads : text -> option json) (writes : list (text * json) -> text).

(** M 105-131, json_to_value: as_i64, else as_f64 (a whole number over i64::MAX is rounded). *)
Fixpoint json_to_value (j : json) : mval :=
  match j with
  | JNull => MNull
  | JBool b => MSc (VBool b)
  | JInt z => if in_range TBig z then MSc (VBig z) else MSc (VDec (round_bits 53 z) 0)
  | JFrac n k => MSc (VDec n k)
  | JStr s => MSc (VVar s)
  | JArr l => MVec (map json_to_value l)
  | JObj o => MSc (VVar (writes o))
  end.
(** [*idx as usize] of an i64, then the bounds check and the indexing (M 44-51, 77-84). *)
Definition nth_checked {A} (l : list A) (i : Z) : option A :=
  if Z.of_nat (length l) <=? usize i then None else l !! Z.to_nat (usize i).
(** M 58-96: a text is read as JSON. *)
Definition access_text (s : text) (k : key) : option mval :=
  match reads s with
  | None => None
  | Some j =>
      match k with
      | KStr n => match j with JObj o => json_to_value <$> member n o | _ => None end
      | KNum i => match j with JArr l => json_to_value <$> nth_checked l i | _ => None end
      end
  end.
(** M 39-102, access_value. *)
Definition access_value (v : mval) (k : key) : option mval :=
  match v with
  | MVec l => match k with KNum i => nth_checked l i | KStr _ => None end
  | MSc (VVar s) | MSc (VChar s) => access_text s k
  | _ => None
  end.
(** M 135-145, evaluate: the keys one after the other. *)
Fixpoint access (v : mval) (ks : list key) : option mval :=
  match ks with [] => Some v | k :: ks => match access_value v k with Some v => access v ks | None => None end end.

(** Planned expressions. A leaf is an expression of another kind with its return type and its values; [f] takes the row. *)
Context {R : Type}.
Inductive fexpr :=
| FLeaf (t : aty) (f : R -> option mval)
| FStruct (es : list fexpr)
| FAccess (e : fexpr) (k : key).
(** The declared types: P 1951 and 2074-2077, 2121-2124, 2136-2139, 2157-2160. *)
Definition ftype (e : fexpr) : aty := match e with FLeaf t _ => t | FStruct _ => AStruct | FAccess _ _ => AInvalid end.
(** T 49-61 and M 135-145. *)
Fixpoint feval (e : fexpr) (r : R) : option mval :=
  match e with
  | FLeaf _ f => f r
  | FStruct es =>
      match (fix all (es : list fexpr) : option (list mval) :=
               match es with
               | [] => Some []
               | e :: es => match feval e r with
                            | Some v => match all es with Some vs => Some (v :: vs) | None => None end
                            | None => None
                            end
               end) es with
      | Some vs => Some (MVec vs)
      | None => None
      end
  | FAccess e k => match feval e r with Some v => access v [k] | None => None end
  end.

(** Written expressions: [SDot e n] is e.n, [SQuoted e s] is e['s'], [SNumber e n] is e[n] with the value of the literal as an i64 if
    it is one, [SName e c n] is e[n] with a name, [c] saying whether it is a column. *)
Inductive fsrc :=
| SLeaf (t : aty) (f : R -> option mval)
| SStruct (names : list text) (es : list fsrc)
| SDot (e : fsrc) (n : text)
| SQuoted (e : fsrc) (s : text)
| SNumber (e : fsrc) (n : option Z)
| SName (e : fsrc) (c : option (R -> option mval)) (n : text).
(** P 1903-1959 (the number of names and of values is not compared) and 2054-2234: a name in brackets is planned as a column first,
    and then used as the key. Not modelled: a computed index (2164-2177), which calls a function that does not exist. *)
Fixpoint fplan (e : fsrc) : option fexpr :=
  match e with
  | SLeaf t f => Some (FLeaf t f)
  | SStruct _ es =>
      match (fix all (es : list fsrc) : option (list fexpr) :=
               match es with
               | [] => Some []
               | e :: es => match fplan e with
                            | Some p => match all es with Some ps => Some (p :: ps) | None => None end
                            | None => None
                            end
               end) es with
      | Some ps => Some (FStruct ps)
      | None => None
      end
  | SDot e n =>
      match fplan e with Some p => if decide (ftype p = AStruct) then Some (FAccess p (KStr n)) else None | None => None end
  | SQuoted e s =>
      match fplan e with
      | Some p => if decide (ftype p = AStruct \/ ftype p = AJson) then Some (FAccess p (KStr s)) else None
      | None => None
      end
  | SNumber e n =>
      match fplan e with
      | Some p => if decide (ftype p = AStruct \/ ftype p = AJson)
                  then Some (FAccess p (KNum (match n with Some i => i | None => 0 end))) else None
      | None => None
      end
  | SName e c n =>
      match fplan e, c with
      | Some p, Some _ => if decide (ftype p = AStruct \/ ftype p = AJson) then Some (FAccess p (KStr n)) else None
      | _, _ => None
      end
  end.
Definition frun (e : fsrc) (r : R) : option mval := match fplan e with Some p => feval p r | None => None end.
End Access.
(** src/types_db/value.rs:797-799, 936-938: CAST of a text to JSON. *)
Definition cast_json (v : val) : option mval := match v with VVar s | VChar s => Some (MJson s) | _ => None end.
Arguments fexpr : clear implicits.
Arguments fsrc : clear implicits.
