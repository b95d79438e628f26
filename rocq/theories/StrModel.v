(** * String functions

    Models src/sql/execution/expressions/substring_expression.rs (S), trim_expression.rs (T),
    overlay_expression.rs (O), position_expression.rs (P), the function calls of
    function_expression.rs (F), and what src/sql/execution/expression_parser.rs makes of
    them.  A string is the list of its characters (Unicode scalar values); the code
    works with byte offsets into its UTF-8 encoding, so the model counts bytes too.

    Simplifications: CHAR and VARCHAR values are one kind of string; of the other types
    only integers are told apart; the operands are given by their values, so an
    operand whose evaluation fails is left out; evaluate_join, the copy of each evaluator
    that takes two tuples, is left out; of UPPER and LOWER only the ASCII letters are
    modelled; no string has 2^31 bytes or more. *)
From Coq Require Import ZArith NArith List Bool String.
From Verif Require Import ExprModel.
Import ListNotations.
Open Scope Z_scope.

Definition ch := N.
Definition str := list ch.

(** src/types_db/value.rs:11-34, restricted. *)
Inductive sv :=
| SNull
| SStr (s : str)
| SInt (t : ity) (z : Z)
| SBool (b : bool).

(** The result of evaluating an expression: a value, an ExpressionError, or a panic. *)
Inductive out := OVal (v : sv) | OErr | OPanic.

(** The number of bytes of a character in UTF-8 (char::len_utf8). *)
Definition ulen (c : ch) : Z :=
  if (c <? 128)%N then 1 else if (c <? 2048)%N then 2 else if (c <? 65536)%N then 3 else 4.

(** String::len. *)
Fixpoint blen (s : str) : Z :=
  match s with [] => 0 | c :: r => ulen c + blen r end.

(** [&s[..i]] and [&s[i..]]: slicing a str panics ([None]) unless byte [i] is the start
    of a character or the end of the string. *)
Fixpoint cut (i : Z) (s : str) : option (str * str) :=
  if i =? 0 then Some ([], s)
  else match s with
       | [] => None
       | c :: r =>
           if i <? ulen c then None
           else match cut (i - ulen c) r with
                | Some (a, b) => Some (c :: a, b)
                | None => None
                end
       end.

(** [&s[i..j]]. *)
Definition slice (s : str) (i j : Z) : option str :=
  match cut i s with
  | Some (_, r) => match cut (j - i) r with Some (a, _) => Some a | None => None end
  | None => None
  end.
Definition slice_from (s : str) (i : Z) : option str := option_map snd (cut i s).

Definition of_slice (o : option str) : out :=
  match o with Some s => OVal (SStr s) | None => OPanic end.

(** [as i32], S 90-94 and 131-135: only a BIGINT can be out of range, and then it wraps. *)
Definition as_i32 (t : ity) (z : Z) : Z :=
  match t with BigInt => wrap Integer z | _ => z end.

(** S 105-116. *)
Definition start_idx (n z : Z) : Z :=
  if 0 <? z then z - 1
  else if z <? 0 then (if n <? - z then 0 else n - - z)
  else 0.

(** S 65-160, SUBSTRING(s FROM f FOR l); [l = None] without FOR.  Note the order: the
    start is checked (119) before the length is looked at. *)
Definition substring (s f : sv) (l : option sv) : out :=
  match s with
  | SNull => OVal SNull
  | SStr s =>
      match f with
      | SNull => OVal SNull
      | SInt t z =>
          let i := start_idx (blen s) (as_i32 t z) in
          if blen s <=? i then OVal (SStr [])
          else match l with
               | None => of_slice (slice_from s i)
               | Some SNull => OVal SNull
               | Some (SInt u w) =>
                   let n := as_i32 u w in
                   if n <=? 0 then OVal (SStr [])
                   else of_slice (slice s i (Z.min (i + n) (blen s)))
               | Some _ => OErr
               end
      | _ => OErr
      end
  | _ => OErr
  end.

(** str::find: the byte offset of the first occurrence.  A match of a UTF-8 string inside
    another always begins at a character, so the search goes by characters. *)
Fixpoint starts (t s : str) : bool :=
  match t, s with
  | [], _ => true
  | a :: t, b :: s => N.eqb a b && starts t s
  | _ :: _, [] => false
  end.
Fixpoint find (t s : str) (off : Z) : option Z :=
  if starts t s then Some off
  else match s with [] => None | c :: r => find t r (off + ulen c) end.

(** P 40-76, POSITION(t IN s). *)
Definition position (t s : sv) : out :=
  match t, s with
  | SNull, _ | _, SNull => OVal SNull
  | SStr t, SStr s =>
      OVal (SInt Integer (match find t s 0 with Some p => p + 1 | None => 0 end))
  | _, _ => OErr
  end.

(** expression_parser.rs:1634-1639. *)
Inductive side := Both | Leading | Trailing.

(** str::trim_start_matches and trim_end_matches with a predicate. *)
Fixpoint trim_start (p : ch -> bool) (s : str) : str :=
  match s with [] => [] | c :: r => if p c then trim_start p r else s end.
Definition trim_end (p : ch -> bool) (s : str) : str := rev (trim_start p (rev s)).

(** T 83-93. *)
Definition trim_str (w : side) (cs s : str) : str :=
  let p c := existsb (N.eqb c) cs in
  match w with
  | Both => trim_end p (trim_start p s)
  | Leading => trim_start p s
  | Trailing => trim_end p s
  end.

(** T 79: blank, tab, line feed, carriage return. *)
Definition blanks : str := [32; 9; 10; 13]%N.

(** T 37-96; [cs] is the second child. *)
Definition trim (w : side) (s : sv) (cs : option sv) : out :=
  match s with
  | SNull => OVal SNull
  | SStr s =>
      match cs with
      | None => OVal (SStr (trim_str w blanks s))
      | Some SNull => OVal SNull
      | Some (SStr c) => OVal (SStr (trim_str w c s))
      | Some _ => OErr
      end
  | _ => OErr
  end.

(** TRIM as written: TRIM(where what FROM s) or TRIM(s, chars).  The parser
    (expression_parser.rs:1627-1680) binds [trim_what] to [_]; TRIM(s, c) with one
    expression passes it on (1669-1672). *)
Record trim_call := { tc_side : side; tc_what : option sv; tc_chars : option sv; tc_arg : sv }.
Definition eval_trim (c : trim_call) : out := trim (tc_side c) (tc_arg c) (tc_chars c).

(** O 49-141, OVERLAY(s PLACING t FROM f FOR l). *)
Definition overlay (s t f : sv) (l : option sv) : out :=
  match s with
  | SStr s =>
      match t with
      | SStr t =>
          match f with
          | SInt Integer z =>
              if z <? 1 then OErr
              else
                let i := z - 1 in
                let put (n : Z) :=
                  if blen s <=? i then OVal (SStr (s ++ t))
                  else
                    let e := if n =? 0 then i else Z.min (i + n) (blen s) in
                    match cut i s, cut e s with
                    | Some (a, _), Some (_, b) => OVal (SStr (a ++ t ++ b))
                    | _, _ => OPanic
                    end in
                match l with
                | None => put (blen t)
                | Some (SInt Integer n) => if n <? 0 then OErr else put n
                | Some _ => OErr
                end
          | _ => OErr
          end
      | _ => OErr
      end
  | _ => OErr
  end.

(** The ASCII part of char::to_uppercase and to_lowercase. *)
Definition up (c : ch) : ch := if (97 <=? c)%N && (c <=? 122)%N then (c - 32)%N else c.
Definition low (c : ch) : ch := if (65 <=? c)%N && (c <=? 90)%N then (c + 32)%N else c.

(** The scalar functions the planner accepts as a call (function_types.rs:46-60 and
    FunctionExpression::infer_return_type, F 30-88), without the date functions. *)
Inductive fname := FUpper | FLower | FConcat | FAbs | FRound | FCeil | FFloor | FLength | FLtrim | FRtrim.

(** F 105-157: evaluate knows two of them. *)
Definition call (f : fname) (args : list sv) : out :=
  match f, args with
  | FLower, [SNull] | FUpper, [SNull] => OVal SNull
  | FLower, [SStr s] => OVal (SStr (map low s))
  | FUpper, [SStr s] => OVal (SStr (map up s))
  | _, _ => OErr
  end.
