(** * CREATE TABLE: what a declaration says, and what a recorded schema says

    Both are read as conditions on the rows a table may hold, so that they can be compared. *)
From Coq Require Import ZArith String.
From stdpp Require Import base list strings.
Local Open Scope nat_scope.

(** A value is NULL or something; a row is its values. *)
Definition sval := option Z.
Notation srow := (list sval) (only parsing).

Inductive action := Cascade | SetNull | SetDefault | Restrict | NoAction.

(** Types as they are written in SQL; [None]: without a length or precision. *)
Inductive sqltype :=
  | QBoolean
  | QTinyInt | QSmallInt | QInt | QInteger | QBigInt | QInt2 | QMediumInt | QInt4 | QInt8 | QInt16 | QInt32 | QInt64
  | QInt128 | QInt256 | QHugeInt | QSigned
  | QTinyIntUnsigned | QUTinyInt | QUInt8 | QSmallIntUnsigned | QUSmallInt | QInt2Unsigned | QUInt16 | QMediumIntUnsigned
  | QIntUnsigned | QIntegerUnsigned | QInt4Unsigned | QUInt32 | QUnsigned | QBigIntUnsigned | QUBigInt | QInt8Unsigned
  | QUInt64 | QUInt128 | QUInt256 | QUHugeInt
  | QVarchar (n : option nat) | QString (n : option nat) | QText | QChar (n : option nat) | QCharacter (n : option nat)
  | QCharVarying (n : option nat)
  | QDecimal (p : option (N * option Z)) | QNumeric (p : option (N * option Z)) | QFloat (p : option (N * option Z))
  | QReal | QDouble
  | QDate | QTime | QTimestamp | QDatetime | QInterval
  | QBinary | QVarbinary | QBlob | QArray | QEnum | QStruct | QJson | QUuid
  | QUnsupported.

(** Options of a column. *)
Inductive copt :=
  | OPk | OUnique | ONotNull | ONull
  | OFk (table : string) (cols : list string) (on_delete on_update : option action)
  | OCheck (e : string) | ODefault (e : string) | OOther.
Record cdef := CD { cd_name : string; cd_type : sqltype; cd_opts : list copt }.

(** Constraints of a table. *)
Inductive tcon :=
  | TPk (cols : list string)
  | TUnique (cols : list string)
  | TFk (cols : list string) (table : string) (rcols : list string) (on_delete on_update : option action)
  | TCheck (e : string)
  | TOther.

(** A column as the catalog records it: type, length, precision, scale and constraints. *)
Inductive tyid := IBoolean | ITinyInt | ISmallInt | IInteger | IBigInt | IDecimal | IFloat | IVarChar | IChar | ITimestamp
  | IDate | ITime | IInterval | IBinary | IVector | IEnum | IStruct | IJson | IUuid.
Record rfk := RFk { rf_table : string; rf_col : string; rf_del : option action; rf_upd : option action }.
Record rcol := RC {
  r_name : string; r_type : tyid; r_len : nat; r_prec : option N; r_scale : option N;
  r_pk : bool; r_notnull : bool; r_unique : bool; r_check : option string; r_default : option string; r_fk : option rfk;
}.

(** The column of that name. *)
Definition at_name (names : list string) (c : string) (i : nat) : Prop := names !! i = Some c.

(** No two rows have the same non-NULL values in all of the columns [is]. *)
Definition distinct_on (is : list nat) (rows : list srow) : Prop :=
  forall a b ra rb, a <> b -> rows !! a = Some ra -> rows !! b = Some rb ->
    ~ (forall i, i ∈ is -> exists v : Z, ra !! i = Some (Some v) /\ rb !! i = Some (Some v)).
(** Column [i] is never NULL. *)
Definition filled (i : nat) (rows : list srow) : Prop := forall r, r ∈ rows -> exists v : Z, r !! i = Some (Some v).

Section meaning.
  (** Whether a row (with these column names) passes a check; the other tables. *)
  Context (passes : string -> list string -> srow -> bool).
  Context (db : string -> option (list string * list srow)).

  (** The columns [is] hold NULL somewhere or the values of the columns [cols] of a row of [table]. *)
  Definition refers_to (is : list nat) (table : string) (cols : list string) (rows : list srow) : Prop :=
    forall r, r ∈ rows ->
      (exists i, i ∈ is /\ r !! i = Some None) \/
      exists names rs p, db table = Some (names, rs) /\ p ∈ rs /\
        Forall2 (fun i c => exists j, at_name names c j /\ r !! i = p !! j) is cols.

  (** What an option of column [i] says. *)
  Definition option_ok (names : list string) (i : nat) (o : copt) (rows : list srow) : Prop :=
    match o with
    | OPk => filled i rows /\ distinct_on [i] rows
    | OUnique => distinct_on [i] rows
    | ONotNull => filled i rows
    | OFk t cols _ _ => refers_to [i] t cols rows
    | OCheck e => forall r, r ∈ rows -> passes e names r = true
    | ONull | ODefault _ | OOther => True
    end.

  (** What a constraint of the table says. *)
  Definition con_ok (names : list string) (c : tcon) (rows : list srow) : Prop :=
    match c with
    | TPk cols => exists is, Forall2 (at_name names) cols is /\ (forall i, i ∈ is -> filled i rows) /\ distinct_on is rows
    | TUnique cols => exists is, Forall2 (at_name names) cols is /\ distinct_on is rows
    | TFk cols t rcols _ _ => exists is, Forall2 (at_name names) cols is /\ refers_to is t rcols rows
    | TCheck e => forall r, r ∈ rows -> passes e names r = true
    | TOther => True
    end.

  (** The rows a declaration allows. *)
  Definition declared_ok (defs : list cdef) (cons : list tcon) (rows : list srow) : Prop :=
    let names := cd_name <$> defs in
    (forall i d o, defs !! i = Some d -> o ∈ cd_opts d -> option_ok names i o rows) /\
    (forall c, c ∈ cons -> con_ok names c rows).

  (** The rows a recorded schema allows: the primary key columns form one key; everything else is said
      of one column. *)
  Definition recorded_ok (cols : list rcol) (rows : list srow) : Prop :=
    let names := r_name <$> cols in
    (forall is, (forall i, i ∈ is <-> exists c, cols !! i = Some c /\ r_pk c = true) -> is <> [] -> distinct_on is rows) /\
    forall i c, cols !! i = Some c ->
      (r_notnull c = true -> filled i rows) /\
      (r_unique c = true -> distinct_on [i] rows) /\
      (forall e, r_check c = Some e -> forall r, r ∈ rows -> passes e names r = true) /\
      (forall f, r_fk c = Some f -> refers_to [i] (rf_table f) [rf_col f] rows).
End meaning.

(** Values of the integer types of SQL, as the dialects define them. *)
Definition sql_range (t : sqltype) : option (Z * Z) :=
  let signed b := Some (- 2 ^ (b - 1), 2 ^ (b - 1) - 1)%Z in
  let unsigned b := Some (0, 2 ^ b - 1)%Z in
  match t with
  | QTinyInt => signed 8%Z
  | QSmallInt | QInt2 | QInt16 => signed 16%Z
  | QMediumInt => signed 24%Z
  | QInt | QInteger | QInt4 | QInt32 => signed 32%Z
  | QBigInt | QInt8 | QInt64 | QSigned => signed 64%Z
  | QInt128 | QHugeInt => signed 128%Z
  | QInt256 => signed 256%Z
  | QTinyIntUnsigned | QUTinyInt | QUInt8 => unsigned 8%Z
  | QSmallIntUnsigned | QUSmallInt | QInt2Unsigned | QUInt16 => unsigned 16%Z
  | QMediumIntUnsigned => unsigned 24%Z
  | QIntUnsigned | QIntegerUnsigned | QInt4Unsigned | QUInt32 => unsigned 32%Z
  | QBigIntUnsigned | QUBigInt | QInt8Unsigned | QUInt64 | QUnsigned => unsigned 64%Z
  | QUInt128 | QUHugeInt => unsigned 128%Z
  | QUInt256 => unsigned 256%Z
  | _ => None
  end.
(** The values of a stored type. *)
Definition stored_range (t : tyid) : option (Z * Z) :=
  let signed b := Some (- 2 ^ (b - 1), 2 ^ (b - 1) - 1)%Z in
  match t with
  | ITinyInt => signed 8%Z
  | ISmallInt => signed 16%Z
  | IInteger => signed 32%Z
  | IBigInt => signed 64%Z
  | _ => None
  end.
Definition in_rng (r : option (Z * Z)) (z : Z) : Prop := match r with Some (a, b) => (a <= z <= b)%Z | None => False end.

(** The declarations for which the two are to agree: one primary key, UNIQUE and FOREIGN KEY over one
    column, no CHECK on the table, and no two different checks, or foreign keys, of the same column;
    NULL only where nothing says otherwise. *)
Definition declares_fk (cons : list tcon) (d : cdef) (tb rc : string) : Prop :=
  (exists del upd, OFk tb [rc] del upd ∈ cd_opts d) \/ (exists del upd, TFk [cd_name d] tb [rc] del upd ∈ cons).
Definition one_key (defs : list cdef) (cons : list tcon) : Prop :=
  ((forall ns, TPk ns ∉ cons) /\
   forall i j di dj, defs !! i = Some di -> defs !! j = Some dj -> OPk ∈ cd_opts di -> OPk ∈ cd_opts dj -> i = j) \/
  ((forall d, d ∈ defs -> OPk ∉ cd_opts d) /\ forall ns ns', TPk ns ∈ cons -> TPk ns' ∈ cons -> ns = ns').
Definition plain (defs : list cdef) (cons : list tcon) : Prop :=
  NoDup (cd_name <$> defs) /\
  (forall d, d ∈ defs -> ONull ∈ cd_opts d -> OPk ∉ cd_opts d /\ ONotNull ∉ cd_opts d) /\
  (forall d e e', d ∈ defs -> OCheck e ∈ cd_opts d -> OCheck e' ∈ cd_opts d -> e = e') /\
  (forall d tb rc tb' rc', d ∈ defs -> declares_fk cons d tb rc -> declares_fk cons d tb' rc' -> tb = tb' /\ rc = rc') /\
  (forall c, c ∈ cons -> match c with
                        | TPk ns => ns <> []
                        | TUnique ns => length ns = 1
                        | TFk ns _ rcs _ _ => length ns = 1 /\ length rcs = 1
                        | TCheck _ => False
                        | TOther => True
                        end) /\
  one_key defs cons.
