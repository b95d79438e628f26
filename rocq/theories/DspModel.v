(** * Model: how results are shown (C114)

    Models Display for Value (/repo/src/types_db/value.rs:2252-2275), Value::format_with_column_context (1277-1304), the
    to_string of the type objects in /repo/src/types_db/*_type.rs and CliResultWriter
    (/repo/src/common/result_writer.rs:288-412).  Text is a list of Unicode scalar values.  Left out: FLOAT, POINT and STRUCT
    values, the values NaN, infinity and minus zero of DECIMAL, and the drawing of the table (prettytable). *)
From Coq Require Import NArith ZArith Ascii String.
From stdpp Require Import list.
From Verif Require Import ShSpec ShModel DspSpec.
Local Open Scope N_scope.

(** i64::to_string and the like. *)
Fixpoint dec (fuel : nat) (n : N) (acc : text) : text :=
  match fuel with
  | O => acc
  | S fuel => let acc := (48 + n mod 10) :: acc in if n <? 10 then acc else dec fuel (n / 10) acc
  end.
Definition show_n (n : N) : text := dec (S (N.size_nat n)) n [].
Definition show_z (z : Z) : text := if (z <? 0)%Z then 45 :: show_n (Z.to_N (- z)) else show_n (Z.to_N z).
(** format!("{:02}", n) for 0 <= n. *)
Definition pad (w : nat) (s : text) : text := repeat 48 (w - length s) ++ s.
Definition show_02 (z : Z) : text := pad 2 (show_z z).

(** format!("{:.p}", n) of an f64: to the nearest, ties to even. *)
Definition round_even (a b : Z) : Z :=
  let q := (a / b)%Z in let r := (a mod b)%Z in
  if (2 * r <? b)%Z then q else if (b <? 2 * r)%Z then (q + 1)%Z else if Z.even q then q else (q + 1)%Z.
Definition fixed (m : Z) (k p : nat) : text :=
  let s := pad (S p) (show_n (Z.to_N (round_even (Z.abs m * 10 ^ Z.of_nat p) (2 ^ Z.of_nat k)))) in
  (if (m <? 0)%Z then [45] else []) ++ take (length s - p) s ++
  (match p with O => [] | _ => 46 :: drop (length s - p) s end).
(** `as i64`. *)
Definition as_i64 (z : Z) : Z := Z.max (- 2 ^ 63) (Z.min z (2 ^ 63 - 1)).

(** decimal_type.rs:227-229 and 299-316. *)
Definition show_dec (m : Z) (k : nat) : text :=
  if (m mod 2 ^ Z.of_nat k =? 0)%Z then show_z (as_i64 (m / 2 ^ Z.of_nat k))
  else trim_end (fun c => c =? 46) (trim_end (fun c => c =? 48) (fixed m k 6)).

(** const_len_type.rs:26-32, with the length 255 of CHAR_TYPE_INSTANCE (10-12); String::len counts bytes. *)
Definition utf8 (c : N) : nat := if c <? 128 then 1 else if c <? 2048 then 2 else if c <? 65536 then 3 else 4.
Definition bytes (s : text) : nat := fold_right Nat.add 0%nat (map utf8 s).
Definition normalize (s : text) : text := let r := take 255 s in r ++ repeat 32 (255 - bytes r).

(** date_type.rs:24-28 and 161-174: the day number becomes unsigned, and chrono adds at most i32::MAX days.  The calendar is
    chrono's: it is given. *)
Definition show_date (ymd : Z -> option text) (days : Z) : text :=
  match (if (days <? 0)%Z then None else ymd days) with
  | Some t => t
  | None => txt "INVALID_DATE(" ++ show_z days ++ [41]
  end.
(** time_type.rs:24-33 and 185-198. *)
Definition show_time (sec : Z) : text :=
  if (0 <=? sec)%Z && (sec <? 24 * 60 * 60)%Z then
    show_02 (sec / 3600) ++ 58 :: show_02 (sec mod 3600 / 60) ++ 58 :: show_02 (sec mod 60)
  else txt "INVALID_TIME(" ++ show_z sec ++ [41].
(** interval_type.rs:22-40. *)
Definition show_interval (seconds : Z) : text :=
  let abs := Z.abs seconds in
  let days := (abs / (24 * 60 * 60))%Z in
  let hours := (abs mod (24 * 60 * 60) / 3600)%Z in
  let minutes := (abs mod 3600 / 60)%Z in
  let secs := (abs mod 60)%Z in
  (if (seconds <? 0)%Z then [45] else []) ++
  (if (0 <? days)%Z then show_z days ++ txt " days " else []) ++
  show_02 hours ++ 58 :: show_02 minutes ++ 58 :: show_02 secs.
(** hex::encode (binary_type.rs:129-135). *)
Definition nibble (n : N) : N := nth (N.to_nat n) (txt "0123456789abcdef") 0.
Definition show_bin (l : list N) : text := txt "\x" ++ flat_map (fun b => [nibble (b / 16); nibble (b mod 16)]) l.

(** The to_string of the type object of [t] (types.rs:311-336). *)
Definition show_scalar (ymd : Z -> option text) (v : scalar) (t : tid) : text :=
  match v, t with
  | VNull, _ => txt "NULL"
  | VBool b, TBool => if b then txt "true" else txt "false"
  | VTiny z, TTiny => show_z z
  | VSmall z, TSmall => show_z z
  | VInt z, TInt => show_z z
  | VBig z, TBig => show_z z
  | VDec m k, TDec => show_dec m k
  | VText s, TVarChar | VConst s, TVarChar => s
  | VText s, TChar | VConst s, TChar => normalize s
  | VTs n, TTs => show_n n
  | VDate z, TDate => show_date ymd z
  | VTime z, TTime => show_time z
  | VIvl z, TIvl => show_interval z
  | VBin l, TBin => show_bin l
  | VJson s, TJson => s
  | VUuid s, TUuid => s
  | VEnum _ s, TEnum => s
  | _, _ => txt "INVALID"
  end.
(** value.rs:2252-2275. *)
Fixpoint show (ymd : Z -> option text) (v : value) : text :=
  match v with
  | Scalar v t => show_scalar ymd v t
  | Seq l _ =>
      [91] ++
      (fix items (first : bool) (l : list value) : text :=
         match l with
         | [] => []
         | v :: l => (if first then [] else txt ", ") ++ show ymd v ++ items false l
         end) true l ++ [93]
  end.

(** value.rs:1277-1304: a column with a precision and a scale shows decimals with the scale. *)
Definition show_in (ymd : Z -> option text) (scale : option nat) (v : value) : text :=
  match v, scale with
  | Scalar (VDec m k) TDec, Some p => fixed m k p
  | _, _ => show ymd v
  end.

(** result_writer.rs:288-412.  The schema gives the scale of each column, if it has one. *)
Inductive wop := WHeader (h : list text) | WRow (schema : list (option nat)) (vals : list value) | WMessage (m : text).
Record writer := Wr { table : option (list text * list (list text)); headers : list text }.
Definition new_writer : writer := Wr None [].
Definition ensure_table (w : writer) : writer :=
  match table w with None => Wr (Some (headers w, [])) (headers w) | Some _ => w end.
Definition cells (ymd : Z -> option text) (schema : list (option nat)) (vals : list value) : list text :=
  imap (fun i v => match schema !! i with Some c => show_in ymd c v | None => show ymd v end) vals.
Definition print_table (w : writer) : list printed := match table w with Some (h, rs) => [PTable h rs] | None => [] end.
Definition wstep (ymd : Z -> option text) (w : writer) (o : wop) : writer * list printed :=
  match o with
  | WHeader h => (ensure_table (Wr None h), [])
  | WRow schema vals =>
      let w := ensure_table w in
      (match table w with
       | Some (h, rs) => Wr (Some (h, rs ++ [cells ymd schema vals])) (headers w)
       | None => w
       end, [])
  | WMessage m => (Wr None (headers w), print_table w ++ [PMessage m])
  end.
(** The operations, and then the drop (404-412). *)
Fixpoint wrun (ymd : Z -> option text) (w : writer) (os : list wop) : list printed :=
  match os with
  | [] => print_table w
  | o :: os => let '(w, p) := wstep ymd w o in p ++ wrun ymd w os
  end.
