(** * Casts *)
(** src/types_db/value.rs:408-1124 (V), cast_to, and src/sql/execution/expressions/cast_expression.rs (E), for the types of CastSpec.v
    (binary, JSON, UUID, enum, point, array, vector and struct are left out). Decimals and floats are finite. Parameters: how a
    decimal is printed and parsed, how an f64 is rounded to an f32, and what chrono makes of a text that is not a number. *)
From Coq Require Import ZArith NArith Lia.
From stdpp Require Import list.
From Verif Require Import CastSpec.
Local Open Scope Z_scope.

(** to_string of an integer: its decimal digits, most significant first, with a minus sign (45). All integers here have at
    most 20 digits. *)
Fixpoint digits (fuel : nat) (n : N) : list N :=
  match fuel with
  | O => []
  | S fuel => if (n <? 10)%N then [(48 + n)%N] else digits fuel (n / 10)%N ++ [(48 + n mod 10)%N]
  end.
Definition show (z : Z) : list N :=
  if z <? 0 then 45%N :: digits 20 (Z.to_N (- z)) else digits 20 (Z.to_N z).
(** str::parse for the integer types: an optional sign (the minus only for signed types), at least one digit, nothing
    else, in range. *)
Definition is_digit (c : N) : bool := (48 <=? c)%N && (c <=? 57)%N.
Definition value_of (s : list N) : option Z :=
  match s with
  | [] => None
  | _ => if forallb is_digit s then Some (Z.of_N (fold_left (fun a c => a * 10 + (c - 48))%N s 0%N)) else None
  end.
Definition in_range (t : cty) (z : Z) : bool :=
  match range t with Some (lo, hi) => (lo <=? z) && (z <=? hi) | None => false end.
Definition parse (t : cty) (s : list N) : option Z :=
  let r := match s with
           | 43%N :: s => value_of s
           | 45%N :: s' => match t with TTs => value_of s | _ => Z.opp <$> value_of s' end
           | _ => value_of s
           end in
  match r with Some z => if in_range t z then Some z else None | None => None end.

(** [i as f64] and [i as f32]: the nearest number with [p] significant bits, ties to even. *)
Definition round_bits (p : Z) (z : Z) : Z :=
  let a := Z.abs z in
  let e := Z.max 0 (Z.log2 a + 1 - p) in
  let q := a / 2 ^ e in
  let r := a mod 2 ^ e in
  let q' := if (2 ^ e <? 2 * r) || ((2 ^ e =? 2 * r) && Z.odd q) then q + 1 else q in
  Z.sgn z * (q' * 2 ^ e).
(** [f as iN] for a finite [f]: truncated, then clamped to the range. *)
Definition trunc (n : Z) (k : nat) : Z := Z.quot n (2 ^ Z.of_nat k).
Definition clamp (t : cty) (z : Z) : Z :=
  match range t with Some (lo, hi) => Z.max lo (Z.min hi z) | None => z end.
(** f64::round: to the nearest whole number, halves away from zero. *)
Definition round_half (n : Z) (k : nat) : Z := Z.sgn n * ((2 * Z.abs n + 2 ^ Z.of_nat k) / (2 * 2 ^ Z.of_nat k)).

Definition mk_whole (t : cty) (z : Z) : val :=
  match t with
  | TTiny => VTiny z | TSmall => VSmall z | TInt => VInt z | TBig => VBig z
  | TTs => VTs z | TDate => VDate z | TTime => VTime z | TItv => VItv z
  | _ => VNull t
  end.
Definition width (t : cty) : nat := match t with TTiny => 1 | TSmall => 2 | TInt => 4 | TBig => 8 | _ => 0 end.

(** "true" and "false". *)
Definition txt_true : list N := [116; 114; 117; 101]%N.
Definition txt_false : list N := [102; 97; 108; 115; 101]%N.
Definition lower (c : N) : N := if (65 <=? c)%N && (c <=? 90)%N then (c + 32)%N else c.
(** V 668-676 (to_lowercase on ASCII letters only). *)
Definition text_bool (s : list N) : option bool :=
  let l := map lower s in
  if bool_decide (l ∈ [txt_true; [116]; [49]; [121; 101; 115]; [121]]%N) then Some true
  else if bool_decide (l ∈ [txt_false; [102]; [48]; [110; 111]; [110]; []]%N) then Some false
  else None.

Section Cast.
Context (show_dec : Z -> nat -> list N) (read_dec : list N -> option (Z * nat)) (read_float : list N -> option (Z * nat)).
Context (to_f32 : Z -> nat -> Z * nat) (chrono : cty -> list N -> option Z).

(** V 484-606: an integer [z] of type [s]. *)
Definition cast_int (s : cty) (z : Z) (t : cty) : option val :=
  match t with
  | TBool => Some (VBool (negb (z =? 0)))
  | TTiny | TSmall | TInt | TBig =>
      if (width s <? width t)%nat then Some (mk_whole t z)
      else if in_range t z then Some (mk_whole t z) else None
  | TDec => Some (VDec (round_bits 53 z) 0)
  | TFloat => Some (VFloat (round_bits 24 z) 0)
  | TTs => match s with
           | TInt | TBig => if 0 <=? z then Some (VTs z) else None      (* 542-551, 592-598 *)
           | _ => None
           end
  | TVar => Some (VVar (show z))
  | TChar => Some (VChar (show z))
  | _ => None
  end.
(** V 665-803 (VarLen) and 804-942 (ConstLen). *)
Definition cast_text (s : list N) (t : cty) : option val :=
  match t with
  | TVar => Some (VVar s)
  | TChar => Some (VChar s)
  | TBool => VBool <$> text_bool s
  | TTiny | TSmall | TInt | TBig | TItv => mk_whole t <$> parse t s
  | TDec => (fun p : Z * nat => VDec p.1 p.2) <$> read_dec s
  | TFloat => (fun p : Z * nat => VFloat p.1 p.2) <$> read_float s
  | TTs | TDate | TTime =>
      match parse t s with
      | Some z => Some (mk_whole t z)
      | None => mk_whole t <$> chrono t s
      end
  end.
(** V 408-1124. *)
Definition cast_to (v : val) (t : cty) : option val :=
  if decide (type_of v = t) then Some v
  else match v with
  | VNull _ => Some (VNull t)
  | VBool b =>
      let z := if b then 1 else 0 in
      match t with
      | TTiny | TSmall | TInt | TBig => Some (mk_whole t z)
      | TDec => Some (VDec z 0)
      | TFloat => Some (VFloat z 0)
      | TVar => Some (VVar (if b then txt_true else txt_false))
      | TChar => Some (VChar (if b then txt_true else txt_false))
      | _ => None
      end
  | VTiny z => cast_int TTiny z t
  | VSmall z => cast_int TSmall z t
  | VInt z => cast_int TInt z t
  | VBig z => cast_int TBig z t
  | VDec n k =>
      match t with
      | TBool => Some (VBool (negb (n =? 0)))
      | TTiny | TSmall | TInt | TBig => Some (mk_whole t (clamp t (trunc n k)))
      | TFloat => let p := to_f32 n k in Some (VFloat p.1 p.2)
      | TVar => Some (VVar (show_dec n k))
      | TChar => Some (VChar (show_dec n k))
      | _ => None
      end
  | VFloat n k =>
      match t with
      | TBool => Some (VBool (negb (n =? 0)))
      | TTiny | TSmall | TInt | TBig => Some (mk_whole t (clamp t (trunc n k)))
      | TDec => Some (VDec n k)
      | TVar => Some (VVar (show_dec n k))
      | TChar => Some (VChar (show_dec n k))
      | _ => None
      end
  | VVar s => cast_text s t
  | VChar s => cast_text s t
  | VTs z =>                                                            (* 944-961 *)
      match t with
      | TVar => Some (VVar (show z))
      | TChar => Some (VChar (show z))
      | TBig => Some (VBig (if z <? 2 ^ 63 then z else z - 2 ^ 64))
      | TInt => if z <=? 2 ^ 31 - 1 then Some (VInt z) else None
      | _ => None
      end
  | VDate z | VTime z =>                                                (* 963-991 *)
      match t with
      | TVar => Some (VVar (show z))
      | TChar => Some (VChar (show z))
      | TInt => Some (VInt z)
      | TBig => Some (VBig z)
      | _ => None
      end
  | VItv z =>                                                           (* 993-1010 *)
      match t with
      | TVar => Some (VVar (show z))
      | TChar => Some (VChar (show z))
      | TBig => Some (VBig z)
      | TInt => if in_range TInt z then Some (VInt z) else None
      | _ => None
      end
  end.

(** E 68-152: CAST in a select list or a WHERE clause (no format). [None] is an error. *)
Definition cast_evaluate (v : val) (t : cty) : option val :=
  match v with
  | VNull _ => Some (VNull t)
  | VDec n k => match t with TInt => Some (VInt (clamp TInt (round_half n k))) | TDec => Some v | _ => None end
  | VInt z => match t with TDec => Some (VDec (round_bits 53 z) 0) | TBig => Some (VBig z) | TInt => Some v | _ => None end
  | VVar s => match t with TChar => Some (VChar s) | TVar => Some v | _ => None end
  | VChar s => match t with TVar => Some (VVar s) | TChar => Some v | _ => None end
  | _ => if decide (type_of v = t) then Some v else None
  end.
(** E 154-167: CAST in a join condition. *)
Definition cast_evaluate_join (v : val) (t : cty) : option val := cast_to v t.
End Cast.
