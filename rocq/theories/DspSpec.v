(** * Specification: how results are shown (C114) *)
From Coq Require Import NArith ZArith Ascii String.
From stdpp Require Import list.
From Verif Require Import ShSpec.
Local Open Scope N_scope.

(** The types of columns and the values of a result.  A decimal is the number [m / 2^k]. *)
Inductive tid := TBool | TTiny | TSmall | TInt | TBig | TDec | TVarChar | TChar | TTs | TDate | TTime | TIvl | TBin | TJson
               | TUuid | TEnum | TSeq.
Inductive scalar :=
| VNull | VBool (b : bool) | VTiny (z : Z) | VSmall (z : Z) | VInt (z : Z) | VBig (z : Z) | VDec (m : Z) (k : nat)
| VText (s : text) | VConst (s : text) | VTs (n : N) | VDate (days : Z) | VTime (sec : Z) | VIvl (sec : Z) | VBin (l : list N)
| VJson (s : text) | VUuid (s : text) | VEnum (id : Z) (s : text).
Inductive value := Scalar (v : scalar) (t : tid) | Seq (l : list value) (t : tid).

(** Numerals. *)
Definition digit (c : N) : Prop := 48 <= c <= 57.
Definition number (s : text) : N := fold_left (fun a c => 10 * a + (c - 48)) s 0.
Definition numeral (s : text) (n : N) : Prop :=
  s <> [] /\ Forall digit s /\ number s = n /\ (head s = Some 48 -> s = [48]).
Definition integer (s : text) (z : Z) : Prop :=
  ((0 <= z)%Z /\ numeral s (Z.to_N z)) \/ ((z < 0)%Z /\ exists t, s = 45 :: t /\ numeral t (Z.to_N (- z))).
(** [s] has at most [p] decimals and is at most half a unit of the [p]-th decimal away from [m / 2^k]. *)
Definition near (s : text) (m : Z) (k p : nat) : Prop :=
  exists i f, Forall digit i /\ i <> [] /\ Forall digit f /\ (length f <= p)%nat /\
    s = (if (m <? 0)%Z then [45] else []) ++ i ++ (match f with [] => [] | _ => 46 :: f end) /\
    (2 * Z.abs (Z.of_N (number (i ++ f)) * 10 ^ Z.of_nat (p - length f) * 2 ^ Z.of_nat k - Z.abs m * 10 ^ Z.of_nat p)
       <= 2 ^ Z.of_nat k)%Z.
Definition two (n : Z) : text := [48 + Z.to_N (n / 10); 48 + Z.to_N (n mod 10)].
(** A time of the day, or less than a day. *)
Definition clock (h m s : Z) : text := two h ++ 58 :: two m ++ 58 :: two s.
Definition is_clock (t : text) (sec : Z) : Prop :=
  exists h m s, (0 <= h < 24 /\ 0 <= m < 60 /\ 0 <= s < 60 /\ sec = h * 3600 + m * 60 + s)%Z /\ t = clock h m s.
Definition hex_digit (n : N) : N := if n <? 10 then 48 + n else 87 + n.

(** How the values should be shown. *)
Inductive shows_scalar : scalar -> tid -> text -> Prop :=
| s_null t : shows_scalar VNull t (txt "NULL")
| s_bool b : shows_scalar (VBool b) TBool (if b then txt "true" else txt "false")
| s_tiny z s : integer s z -> shows_scalar (VTiny z) TTiny s
| s_small z s : integer s z -> shows_scalar (VSmall z) TSmall s
| s_int z s : integer s z -> shows_scalar (VInt z) TInt s
| s_big z s : integer s z -> shows_scalar (VBig z) TBig s
| s_whole m k z s : (m = z * 2 ^ Z.of_nat k)%Z -> integer s z -> shows_scalar (VDec m k) TDec s
| s_dec m k s : (m mod 2 ^ Z.of_nat k <> 0)%Z -> near s m k 6 -> shows_scalar (VDec m k) TDec s
| s_text s : shows_scalar (VText s) TVarChar s
| s_ts n s : numeral s n -> shows_scalar (VTs n) TTs s
| s_time z s : is_clock s z -> shows_scalar (VTime z) TTime s
| s_ivl z d r s c : (Z.abs z = d * 86400 + r /\ 0 <= d)%Z -> is_clock c r -> numeral s (Z.to_N d) ->
    shows_scalar (VIvl z) TIvl ((if (z <? 0)%Z then [45] else []) ++ (if (0 <? d)%Z then s ++ txt " days " else []) ++ c)
| s_bin l : shows_scalar (VBin l) TBin (txt "\x" ++ flat_map (fun b => [hex_digit (b / 16); hex_digit (b mod 16)]) l)
| s_json s : shows_scalar (VJson s) TJson s
| s_uuid s : shows_scalar (VUuid s) TUuid s
| s_enum i s : shows_scalar (VEnum i s) TEnum s.
Fixpoint commas (l : list text) : text :=
  match l with [] => [] | [s] => s | s :: l => s ++ txt ", " ++ commas l end.
Fixpoint shows (v : value) (s : text) : Prop :=
  match v with
  | Scalar v t => shows_scalar v t s
  | Seq l _ => exists ss, s = [91] ++ commas ss ++ [93] /\
      (fix all (l : list value) (ss : list text) : Prop :=
         match l, ss with [], [] => True | v :: l, s :: ss => shows v s /\ all l ss | _, _ => False end) l ss
  end.

(** The values a column of a type holds. *)
Definition between (lo x hi : Z) : Prop := (lo <= x < hi)%Z.
Definition held (v : scalar) (t : tid) : Prop :=
  match v, t with
  | VNull, _ | VBool _, TBool | VText _, TVarChar | VConst _, TChar | VText _, TChar | VJson _, TJson | VUuid _, TUuid
  | VEnum _ _, TEnum | VTs _, TTs | VDec _ _, TDec => True
  | VTiny z, TTiny => between (-2^7) z (2^7)
  | VSmall z, TSmall => between (-2^15) z (2^15)
  | VInt z, TInt | VDate z, TDate => between (-2^31) z (2^31)
  | VBig z, TBig => between (-2^63) z (2^63)
  | VTime z, TTime => between 0 z 86400
  | VIvl z, TIvl => between (-2^63 + 1) z (2^63)
  | VBin l, TBin => Forall (fun b => b < 256) l
  | _, _ => False
  end.
Fixpoint holds (ok : scalar -> tid -> Prop) (v : value) : Prop :=
  match v with
  | Scalar v t => ok v t
  | Seq l _ => (fix all (l : list value) : Prop := match l with [] => True | v :: l => holds ok v /\ all l end) l
  end.

(** A result table as it is printed, and the messages. *)
Inductive printed := PTable (headers : list text) (rows : list (list text)) | PMessage (m : text).
