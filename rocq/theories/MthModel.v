(** Methods called on values:
    /repo/src/sql/execution/expressions/method_expression.rs.

    The object and the arguments are taken as already evaluated (lines 48-52).
    A text is the list of its characters: the two characters the code looks for
    take one byte each, so slicing between them by bytes and by characters is
    the same. *)

From Coq Require Import List ZArith String Bool.
From Verif Require Import MthSpec.
Import ListNotations.
Open Scope Z_scope.

(** [String::len] counts the bytes of the UTF-8 form (lines 59, 61). *)
Definition char_bytes (c : Z) : Z :=
  if c <? 128 then 1 else if c <? 2048 then 2 else if c <? 65536 then 3 else 4.

Fixpoint byte_len (s : text) : Z :=
  match s with [] => 0 | c :: r => char_bytes c + byte_len r end.

(** [as i32] (lines 59, 61, 188). *)
Definition as_i32 (n : Z) : Z := (n + 2 ^ 31) mod 2 ^ 32 - 2 ^ 31.

(** [as usize] on a 64-bit machine (lines 153-156). *)
Definition as_usize (i : Z) : Z := i mod 2 ^ 64.

(** [find] and [rfind] of a character (lines 108-109). *)
Fixpoint find (c : Z) (s : text) : option nat :=
  match s with
  | [] => None
  | x :: r => if x =? c then Some O else option_map S (find c r)
  end.

Fixpoint rfind (c : Z) (s : text) : option nat :=
  match s with
  | [] => None
  | x :: r =>
    match rfind c r with
    | Some i => Some (S i)
    | None => if x =? c then Some O else None
    end
  end.

(** [contains] (line 106). *)
Definition contains (c : Z) (s : text) : bool := existsb (Z.eqb c) s.

(** [content[start..end]] (line 111). *)
Definition slice (start stop : nat) (s : text) : text :=
  firstn (stop - start) (skipn start s).

(** The text of [value] (lines 106-118). *)
Definition extract (content : text) : text :=
  if contains lt content && contains gt content then
    let start := match find gt content with Some i => S i | None => O end in
    let stop := match rfind lt content with Some i => i | None => List.length content end in
    if Nat.ltb start stop then slice start stop content else content
  else content.

(** [parse::<i32>] of the standard library (line 123): a sign or none, at least
    one digit, nothing else, and a number that fits.  Simplified: whether it
    fits is asked once, at the end, and not at every digit. *)
Definition is_digit (d : Z) : bool := (48 <=? d) && (d <=? 57).

Fixpoint digits_from (acc : Z) (s : text) : option Z :=
  match s with
  | [] => Some acc
  | d :: r => if is_digit d then digits_from (10 * acc + (d - 48)) r else None
  end.

Definition number (s : text) : option Z :=
  match s with [] => None | _ => digits_from 0 s end.

Definition signed (s : text) : option Z :=
  match s with
  | [] => None
  | c :: r =>
    if c =? 43 then number r
    else if c =? 45 then option_map Z.opp (number r)
    else number s
  end.

Definition parse_i32 (s : text) : option Z :=
  match signed s with
  | Some v => if (- 2 ^ 31 <=? v) && (v <? 2 ^ 31) then Some v else None
  | None => None
  end.

Definition text_eqb (a b : text) : bool :=
  if list_eq_dec Z.eq_dec a b then true else false.

Definition one_of (s : text) (names : list string) : bool :=
  existsb (fun n => text_eqb s (of_string n)) names.

(** [VarLen] or [ConstLen] (lines 80-96). *)
Definition as_text (v : value) : option text :=
  match v with Text s | FixedText s => Some s | _ => None end.

Section Methods.

(** [str::to_uppercase] (line 103), which follows the tables of Unicode. *)
Context (upper : text -> text).

(** "length" (lines 57-68); the arguments are not looked at. *)
Definition length_of (obj : value) : answer :=
  match obj with
  | Text s | FixedText s => Value (Num Int (as_i32 (byte_len s)))
  | _ => Failed
  end.

(** "value" (lines 71-141). *)
Definition value_of (obj : value) (args : list value) : answer :=
  match args with
  | [p; t] =>
    match as_text p with
    | None => Failed
    | Some _path =>
      match as_text t with
      | None => Failed
      | Some ty =>
        match obj with
        | Text content =>
          if one_of (upper ty) ["NVARCHAR"; "VARCHAR"; "NVARCHAR(MAX)"; "VARCHAR(MAX)"]%string
          then Value (Text (extract content))
          else if one_of (upper ty) ["INT"; "INTEGER"]%string then
            match parse_i32 content with
            | Some i => Value (Num Int i)
            | None => Failed
            end
          else Failed
        | _ => Failed
        end
      end
    end
  | _ => Failed
  end.

(** "get" (lines 144-178). *)
Definition get_of (obj : value) (args : list value) : answer :=
  match args with
  | [a] =>
    match obj with
    | Vec l =>
      match a with
      | Num _ i =>
        if as_usize i <? Z.of_nat (List.length l) then
          match nth_error l (Z.to_nat (as_usize i)) with
          | Some v => Value v
          | None => Failed
          end
        else Failed
      | _ => Failed
      end
    | _ => Failed
    end
  | _ => Failed
  end.

(** "size" (lines 180-194). *)
Definition size_of (obj : value) (args : list value) : answer :=
  match args with
  | [] =>
    match obj with
    | Vec l => Value (Num Int (as_i32 (Z.of_nat (List.length l))))
    | _ => Failed
    end
  | _ => Failed
  end.

(** [evaluate] (lines 47-202). *)
Definition call (obj : value) (name : string) (args : list value) : answer :=
  if (String.eqb name "length" || String.eqb name "len")%bool then length_of obj
  else if String.eqb name "value" then value_of obj args
  else if (String.eqb name "get" || String.eqb name "at")%bool then get_of obj args
  else if (String.eqb name "size" || String.eqb name "count")%bool then size_of obj args
  else Failed.

End Methods.
