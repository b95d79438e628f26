(** * CREATE TABLE: from the statement to the recorded columns

    Models build_create_table_plan and process_table_constraints of src/sql/planner/plan_builder.rs (P),
    convert_column_defs and what it calls of src/sql/planner/schema_manager.rs (M), and the builder of
    src/catalog/column.rs (C).

    Simplifications: a default value is its text (M 532: Value::new of the printed expression); column
    offsets are left out; of the SQL types those of DdlSpec.v. *)
From Coq Require Import ZArith String.
From stdpp Require Import base list strings.
From Verif Require Import DdlSpec.
Local Open Scope nat_scope.

(** M 874-1006, convert_sql_type. *)
Definition convert_type (t : sqltype) : option tyid :=
  match t with
  | QBoolean => Some IBoolean
  | QTinyInt => Some ITinyInt
  | QSmallInt => Some ISmallInt
  | QInt | QInteger => Some IInteger
  | QBigInt => Some IBigInt
  | QDecimal _ => Some IDecimal
  | QFloat _ => Some IFloat
  | QVarchar _ | QString _ | QText | QChar _ => Some IVarChar
  | QArray => Some IVector
  | QTimestamp => Some ITimestamp
  | QCharacter _ => Some IChar
  | QCharVarying _ => Some IVarChar
  | QBinary | QVarbinary | QBlob => Some IBinary
  | QNumeric _ => Some IDecimal
  | QTinyIntUnsigned | QUTinyInt => Some ITinyInt
  | QInt2 | QInt2Unsigned | QSmallIntUnsigned | QUSmallInt => Some ISmallInt
  | QMediumInt | QMediumIntUnsigned | QInt4 => Some IInteger
  | QInt8 => Some IBigInt
  | QInt16 => Some ISmallInt
  | QInt32 => Some IInteger
  | QInt64 | QInt128 | QInt256 => Some IBigInt
  | QIntUnsigned | QInt4Unsigned | QIntegerUnsigned => Some IInteger
  | QHugeInt | QUHugeInt => Some IBigInt
  | QUInt8 => Some ITinyInt
  | QUInt16 => Some ISmallInt
  | QUInt32 => Some IInteger
  | QUInt64 | QUInt128 | QUInt256 | QBigIntUnsigned | QUBigInt | QInt8Unsigned => Some IBigInt
  | QSigned | QUnsigned => Some IInteger
  | QReal => Some IFloat
  | QDouble => Some IDecimal
  | QDate => Some IDate
  | QTime => Some ITime
  | QDatetime => Some ITimestamp
  | QInterval => Some IInterval
  | QEnum => Some IEnum
  | QStruct => Some IStruct
  | QJson => Some IJson
  | QUuid => Some IUuid
  | QUnsupported => None
  end.

(** C 413-434, default_type_size. *)
Definition default_size (t : tyid) : nat :=
  match t with
  | IBoolean | ITinyInt => 1
  | ISmallInt => 2
  | IInteger => 4
  | IBigInt | IDecimal | ITimestamp => 8
  | IVarChar | IChar => 255
  | IVector => 1024
  | IStruct => 64
  | IFloat | IDate | ITime => 4
  | IInterval => 8
  | IBinary => 255
  | IJson => 1024
  | IUuid => 16
  | IEnum => 4
  end.

(** M 759-799, extract_precision_scale: [None] is an error. *)
Definition precision_scale (p : option (N * option Z)) : option (option N * option N) :=
  match p with
  | None => Some (None, None)
  | Some (p, None) => if (255 <? p)%N then None else Some (Some p, None)
  | Some (p, Some s) =>
      if (255 <? p)%N then None
      else if (s <? 0)%Z || (255 <? s)%Z then None
      else if (p <? Z.to_N s)%N then None
      else Some (Some p, Some (Z.to_N s))
  end.

(** M 608-741, with C 382-408 and 509-521: length, precision and scale of the column. *)
Definition type_params (t : sqltype) (ty : tyid) : option (nat * option N * option N) :=
  let built len := match len with
                   | Some n => match ty with IVector => n * 8 | _ => n end
                   | None => default_size ty
                   end in
  match t with
  | QDecimal p | QNumeric p =>
      match precision_scale p with Some (a, b) => Some (built None, a, b) | None => None end
  | QFloat p =>
      match precision_scale p with Some (a, _) => Some (built None, a, None) | None => None end
  | QVarchar _ | QString _ => Some (built (Some 255), None, None)
  | QChar _ => Some (built (Some 1), None, None)
  | QBinary | QVarbinary | QBlob => Some (built (Some 255), None, None)
  | QArray => Some (built (Some 1024), None, None)
  | _ => Some (built None, None, None)
  end.

(** M 472-548, parse_column_options, one option; the six variables of the loop are fields of a column. *)
Definition parse_option (c : rcol) (o : copt) : option rcol :=
  let '(RC n t l p s pk nn un ck df fk) := c in
  match o with
  | OPk => Some (RC n t l p s true true un ck df fk)
  | OUnique => Some (RC n t l p s pk nn true ck df fk)
  | ONotNull => Some (RC n t l p s pk true un ck df fk)
  | ONull => Some (RC n t l p s pk false un ck df fk)
  | OFk tb [col] del upd => Some (RC n t l p s pk nn un ck df (Some (RFk tb col del upd)))
  | OFk _ _ _ _ => None
  | OCheck e => Some (RC n t l p s pk nn un (Some e) df fk)
  | ODefault e => Some (RC n t l p s pk nn un ck (Some e) fk)
  | OOther => Some c
  end.
Fixpoint parse_options (c : rcol) (os : list copt) : option rcol :=
  match os with
  | [] => Some c
  | o :: os => match parse_option c o with Some c => parse_options c os | None => None end
  end.

(** M 415-448, convert_column_defs, one column. *)
Definition convert_def (d : cdef) : option rcol :=
  match convert_type (cd_type d) with
  | Some ty =>
      match type_params (cd_type d) ty with
      | Some (l, p, s) => parse_options (RC (cd_name d) ty l p s false false false None None None) (cd_opts d)
      | None => None
      end
  | None => None
  end.

(** P 1288-1290: find on iter_mut, the first column of that name, changed by [f]. *)
Fixpoint upd_col (name : string) (f : rcol -> rcol) (cols : list rcol) : option (list rcol) :=
  match cols with
  | [] => None
  | c :: cs => if String.eqb (r_name c) name then Some (f c :: cs)
               else match upd_col name f cs with Some cs => Some (c :: cs) | None => None end
  end.
Fixpoint upd_cols (names : list string) (f : rcol -> rcol) (cols : list rcol) : option (list rcol) :=
  match names with
  | [] => Some cols
  | n :: ns => match upd_col n f cols with Some cols => upd_cols ns f cols | None => None end
  end.

(** C 630-632 and 687-689 together, 697-699, and set_foreign_key. *)
Definition set_pk (c : rcol) : rcol :=
  let '(RC n t l p s _ _ un ck df fk) := c in RC n t l p s true true un ck df fk.
Definition set_unique (c : rcol) : rcol :=
  let '(RC n t l p s pk nn _ ck df fk) := c in RC n t l p s pk nn true ck df fk.
Definition set_fk (f : rfk) (c : rcol) : rcol :=
  let '(RC n t l p s pk nn un ck df _) := c in RC n t l p s pk nn un ck df (Some f).

(** P 1263-1377, process_table_constraints, one constraint. *)
Definition process_con (cols : list rcol) (c : tcon) : option (list rcol) :=
  match c with
  | TPk names => upd_cols names set_pk cols
  | TUnique names => upd_cols names set_unique cols
  | TFk [name] tb [rc] _ _ => upd_col name (set_fk (RFk tb rc None None)) cols
  | TFk _ _ _ _ _ => Some cols
  | TCheck _ => Some cols
  | TOther => Some cols
  end.
Fixpoint process_cons (cols : list rcol) (cs : list tcon) : option (list rcol) :=
  match cs with
  | [] => Some cols
  | c :: cs => match process_con cols c with Some cols => process_cons cols cs | None => None end
  end.

(** P 1183-1244 for a table that does not exist: the columns of its schema; [None]: the statement is
    refused. *)
Definition create_table (defs : list cdef) (cons : list tcon) : option (list rcol) :=
  match defs with
  | [] => None
  | _ => match mapM convert_def defs with
         | Some cols => process_cons cols cons
         | None => None
         end
  end.
