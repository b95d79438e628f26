(** * LIKE patterns

    Models src/sql/execution/expressions/like_expression.rs.  A string is the list of its
    characters (Unicode scalar values).  The parser gives no character class: LIKE and ILIKE
    both compare ignoring ASCII case (src/sql/execution/expression_parser.rs:1525-1569). *)
From Coq Require Import NArith List Bool.
Import ListNotations.
Local Open Scope N_scope.

Notation str := (list N).

(** The number of bytes of a character in UTF-8 (Rust strings). *)
Definition utf8_len (c : N) : N :=
  if c <? 128 then 1 else if c <? 2048 then 2 else if c <? 65536 then 3 else 4.

(** char::to_ascii_lowercase. *)
Definition lower (c : N) : N := if (65 <=? c) && (c <=? 90) then c + 32 else c.

(** 98-102: comparison of two characters. *)
Definition char_eq (cs : bool) (a b : N) : bool :=
  if cs then a =? b else lower a =? lower b.

Definition percent : N := 37.
Definition underscore : N := 95.

(** Slicing a string inside a character panics. *)
Inductive mres := MTrue | MFalse | MPanic.

Definition is_esc (esc : option N) (c : N) : bool :=
  match esc with Some e => e =? c | None => false end.

(** 47-115, matches_pattern; the loop's state is the rest of the pattern, the rest of the value
    and [escaping].  The inner [fix] is the loop of 77-82 over byte offsets: the first offset
    after a character of several bytes is inside it. *)
Fixpoint matches (cs : bool) (esc : option N) (escaping : bool) (p v : str) {struct p} : mres :=
  match p with
  | [] => match v with [] => MTrue | _ => MFalse end
  | c :: p' =>
      if negb escaping && is_esc esc c then matches cs esc true p' v
      else if negb escaping && (c =? percent) then
        match p' with
        | [] => MTrue
        | _ =>
            (fix try (v : str) : mres :=
               match matches cs esc false p' v with
               | MTrue => MTrue
               | MPanic => MPanic
               | MFalse =>
                   match v with
                   | [] => MFalse
                   | x :: v' => if 1 <? utf8_len x then MPanic else try v'
                   end
               end) v
        end
      else if negb escaping && (c =? underscore) then
        match v with [] => MFalse | _ :: v' => matches cs esc false p' v' end
      else
        match v with
        | [] => MFalse
        | x :: v' => if char_eq cs x c then matches cs esc false p' v' else MFalse
        end
  end.

(** Value's Display for strings and NULL (src/types_db/value.rs:2252-2275,
    src/types_db/varlen_type.rs:127-133). *)
Definition show (v : option str) : str :=
  match v with Some s => s | None => [78; 85; 76; 76] end.

(** 119-128, evaluate, once both sides are evaluated.  [None] is a panic; the result is never
    NULL. *)
Definition like_eval (cs negated : bool) (esc : option N) (v p : option str) : option bool :=
  match matches cs esc false (show p) (show v) with
  | MTrue => Some (negb negated)
  | MFalse => Some negated
  | MPanic => None
  end.
