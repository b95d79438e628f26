(** * Specification: fields of structs and JSON documents (C117) *)
From Coq Require Import ZArith NArith.
From stdpp Require Import list.
From Verif Require Import CastSpec.
Local Open Scope Z_scope.

Notation text := (list N).
(** JSON documents; a number is a whole number or a fraction [n / 2^k]. *)
Inductive json :=
| JNull | JBool (b : bool) | JInt (z : Z) | JFrac (n : Z) (k : nat) | JStr (s : text) | JArr (l : list json) | JObj (o : list (text * json)).
(** Values: scalars, arrays, the untyped NULL, values of type JSON and STRUCT. *)
Inductive mval := MSc (v : val) | MVec (l : list mval) | MNull | MJson (s : text) | MStruct.
(** A step into a document: the member with that name, or the element with that number (from 0 on). *)
Inductive key := KStr (s : text) | KNum (i : Z).

Fixpoint member (k : text) (o : list (text * json)) : option json :=
  match o with [] => None | (k', j) :: o => if decide (k' = k) then Some j else member k o end.
Definition step (k : key) (j : json) : option json :=
  match k, j with
  | KStr s, JObj o => member s o
  | KNum i, JArr l => if i <? 0 then None else l !! Z.to_nat i
  | _, _ => None
  end.
(** What the document has at a path. *)
Fixpoint at_path (p : list key) (j : json) : option json :=
  match p with [] => Some j | k :: p => match step k j with Some j => at_path p j | None => None end end.
(** Everything in a document is reached by a path. *)
Definition within (j doc : json) : Prop := exists p, at_path p doc = Some j.

(** [v] is the SQL value for [j]: a whole number is a BIGINT if it fits; an object is its text ([reads] says what a text is read
    as). *)
Inductive stands (reads : text -> option json) : mval -> json -> Prop :=
| st_null : stands reads MNull JNull
| st_bool b : stands reads (MSc (VBool b)) (JBool b)
| st_int z : fits TBig z -> stands reads (MSc (VBig z)) (JInt z)
| st_big z v : ~ fits TBig z -> type_of v = TDec -> stands reads (MSc v) (JInt z)
| st_frac n k : stands reads (MSc (VDec n k)) (JFrac n k)
| st_str s : stands reads (MSc (VVar s)) (JStr s)
| st_arr vs js : Forall2 (stands reads) vs js -> stands reads (MVec vs) (JArr js)
| st_obj s o : reads s = Some (JObj o) -> stands reads (MSc (VVar s)) (JObj o).

(** Keys are 64-bit numbers, and arrays have fewer than 2^63 elements. *)
Definition sound_key (k : key) : Prop := match k with KStr _ => True | KNum i => fits TBig i end.
Definition short {A} (l : list A) : Prop := Z.of_nat (length l) < 2 ^ 63.
(** The arrays of a document are that short. *)
Definition sized (doc : json) : Prop := forall l, within (JArr l) doc -> short l.
(** A container has members or elements. *)
Definition container (j : json) : Prop := match j with JArr _ | JObj _ => True | _ => False end.
