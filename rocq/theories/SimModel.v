(** * SIMILAR TO (src/sql/execution/expressions/regex_expression.rs, expression_parser.rs:926-954)

    Simplifications: a value is the text it is shown as (value.rs:2252-2275). Of the regex crate the part
    is modelled that the converted patterns use: one anchored sequence of characters, dots and classes;
    anything else is an error here. *)
From Coq Require Import NArith.
From stdpp Require Import base list.
From Verif Require Import SimSpec.
Local Open Scope N_scope.

(** regex::escape: the characters \ . + * ? ( ) | [ ] { } ^ $ # & - ~ get a backslash. *)
Definition meta : list N := [92; 46; 43; 42; 63; 40; 41; 124; 91; 93; 123; 125; 94; 36; 35; 38; 45; 126].
Definition is_meta (c : N) : bool := bool_decide (c ∈ meta).
Definition rescape (c : N) : list N := if is_meta c then [92; c] else [c].

(** regex_expression.rs:101-126: the loop; in_class is the loop of 114-121. A class that is not closed and
    an escape character at the end are copied as they are. *)
Fixpoint conv (e : N) (in_class : bool) (p : list N) {struct p} : list N :=
  match p with
  | [] => []
  | c :: q =>
      if in_class then
        if c =? 93 then 93 :: conv e false q
        else rescape c ++ conv e true q
      else if c =? e then
        match q with
        | [] => []
        | n :: q => rescape n ++ conv e false q
        end
      else if c =? 37 then [46; 42] ++ conv e false q
      else if c =? 95 then 46 :: conv e false q
      else if c =? 91 then 91 :: conv e true q
      else rescape c ++ conv e false q
  end.
(** regex_expression.rs:97-102, 128: None is the panic on an empty escape string, met at the first character. *)
Definition convert (esc : option (list N)) (p : list N) : option (list N) :=
  match esc with
  | None => Some ([94] ++ conv 92 false p ++ [36])
  | Some (e :: _) => Some ([94] ++ conv e false p ++ [36])
  | Some [] => match p with [] => Some [94; 36] | _ :: _ => None end
  end.

(** The regex crate: what it makes of ^...$ . A dot does not match a line feed. *)
Inductive atom := RChr (c : N) | RAny | RAnyStar | RSet (neg : bool) (l : list (N * N)).
(** Inside a class st holds the sign and the items read so far. A ] right after the opening bracket is an
    item, so the class of [] is never closed by the texts above: an error. *)
Fixpoint rparse (st : option (bool * list (N * N))) (p : list N) {struct p} : option (list atom) :=
  match st with
  | None =>
      match p with
      | [] => None
      | c :: q =>
          if c =? 36 then match q with [] => Some [] | _ :: _ => None end
          else if c =? 92 then
            match q with
            | n :: q => if is_meta n then cons (RChr n) <$> rparse None q else None
            | [] => None
            end
          else if c =? 46 then
            match q with
            | n :: r => if n =? 42 then cons RAnyStar <$> rparse None r else cons RAny <$> rparse None q
            | [] => None
            end
          else if c =? 91 then
            match q with
            | n :: r => if n =? 94 then match r with m :: _ => if m =? 93 then None else rparse (Some (true, [])) r | [] => None end
                        else if n =? 93 then None else rparse (Some (false, [])) q
            | [] => None
            end
          else if is_meta c then None
          else cons (RChr c) <$> rparse None q
      end
  | Some (neg, l) =>
      match p with
      | [] => None
      | c :: q =>
          if c =? 93 then cons (RSet neg l) <$> rparse None q
          else if c =? 92 then
            match q with
            | n :: q => if is_meta n then rparse (Some (neg, l ++ [(n, n)])) q else None
            | [] => None
            end
          else if is_meta c then None
          else match q with
               | d :: h :: r => if (d =? 45) && negb (is_meta h) then rparse (Some (neg, l ++ [(c, h)])) r
                                else rparse (Some (neg, l ++ [(c, c)])) q
               | _ => rparse (Some (neg, l ++ [(c, c)])) q
               end
      end
  end.
Definition regex_new (p : list N) : option (list atom) :=
  match p with
  | c :: p => if c =? 94 then rparse None p else None
  | [] => None
  end.
Definition in_set (l : list (N * N)) (c : N) : bool := existsb (fun p => (fst p <=? c) && (c <=? snd p)) l.
Definition atom_ok (a : atom) (c : N) : bool :=
  match a with
  | RChr d => c =? d
  | RAny | RAnyStar => negb (c =? 10)
  | RSet neg l => xorb neg (in_set l c)
  end.
(** Regex::is_match. *)
Fixpoint is_match (a : list atom) : list N -> bool :=
  match a with
  | [] => fun t => match t with [] => true | _ :: _ => false end
  | RAnyStar :: a =>
      fix go t := is_match a t || match t with [] => false | c :: t => atom_ok RAnyStar c && go t end
  | x :: a => fun t => match t with [] => false | c :: t => atom_ok x c && is_match a t end
  end.

(** value.rs:2252-2257. *)
Definition shown (o : operand) : list N := match o with ONull => [78; 85; 76; 76] | OText t => t end.
(** regex_expression.rs:133-167 (and 169-217, the same over the two tuples of a join) for SimilarTo and
    NotSimilarTo; esc is the text after ESCAPE. *)
Definition similar (esc : option (list N)) (negated : bool) (value pattern : operand) : answer :=
  match convert esc (shown pattern) with
  | None => APanic
  | Some p =>
      match regex_new p with
      | None => AError
      | Some a => let m := is_match a (shown value) in ABool (if negated then negb m else m)
      end
  end.
