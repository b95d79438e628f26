(** * INSERT, UPDATE and DELETE and the constraints of a table

    Models the insert path: src/sql/planner/plan_builder.rs (build_insert_plan,
    build_values_plan), src/sql/planner/schema_manager.rs (map_values_to_schema,
    parse_column_options' effect on the columns), src/sql/execution/executors/insert_executor.rs,
    update_executor.rs and delete_executor.rs, src/storage/table/transactional_table_heap.rs
    (insert_tuple_from_values, bulk_insert_tuples_from_values_async),
    src/storage/table/table_heap.rs (expand_values_for_schema) and the creation of tables in
    src/catalog/database.rs.

    Simplified: one transaction at a time, so that the rows of a table are those it sees
    (MvccModel.v has the versions); the rows are in a list (TheapModel.v has the pages); the
    expressions of a VALUES row, of a WHERE clause and of an assignment are given by their
    results; whether the heap takes a row (locks, space, conflicts) is an argument of each
    operation; of the types, six.  catalog/constraints.rs (ConstraintValidator) is not modelled:
    nothing outside that file refers to it. *)
From Coq Require Import ZArith String Ascii.
From stdpp Require Import base list strings gmap.
From Verif Require Import InsSpec.
Local Open Scope Z_scope.

(** A table: catalog/table_info (schema, heap). *)
Record Tab := mkT { t_cols : list ICol; t_rows : list (list IVal) }.

(** The catalog's tables by name (catalog/database.rs 188-200, table_names and tables); the
    static AUTO_INCREMENT_COUNTER (table_heap.rs 1309-1310), shared by all the tables; [w_gen]
    is not in the program: the keys the counter has given out so far. *)
Record World := mkW { w_tabs : gmap string Tab; w_next : Z; w_gen : list Z }.

(** table_heap.rs 1310: AtomicI32::new(1). *)
Definition w_init : World := mkW ∅ 1 [].

(** AtomicI32::fetch_add wraps around. *)
Definition wrap32 (z : Z) : Z := (z + 2147483648) mod 4294967296 - 2147483648.

(** char::to_uppercase, on ASCII letters only. *)
Definition up_ascii (a : ascii) : ascii :=
  let n := nat_of_ascii a in
  if (97 <=? n)%nat && (n <=? 122)%nat then ascii_of_nat (n - 32) else a.
Fixpoint up_string (s : string) : string :=
  match s with
  | EmptyString => EmptyString
  | String a t => String (up_ascii a) (up_string t)
  end.

(** types_db/value.rs 194-201, is_current_timestamp. *)
Definition is_now (v : IVal) : bool :=
  match v_pay v with
  | PText s => String.eqb (up_string s) "CURRENT_TIMESTAMP" || String.eqb (up_string s) "NOW()"
  | _ => false
  end.

(** types_db/value.rs 2310-2333, PartialEq. *)
Definition veq (a b : IVal) : bool :=
  (is_null a && is_null b) || (bool_decide (v_ty a = v_ty b) && bool_decide (v_pay a = v_pay b)).

(** table_heap.rs 1286-1297: a value for column [c] was not given.  The result is the value, and
    whether it is to be a generated key. *)
Definition missing_value (now : Z) (c : ICol) : option IVal :=
  match c_default c with
  | Some d => if is_now d then Some (mkV TTime (PNum now)) else Some d
  | None => if c_notnull c then None else Some (mkV (c_ty c) PNull)
  end.

(** table_heap.rs 1248-1298, the loop of expand_values_for_schema over the columns, and 1306-1312,
    get_next_auto_increment_value.  Gives the row (None: an error), the counter and the keys given
    out; an error does not give keys back. *)
Fixpoint expand_cols (now nx : Z) (cols : list ICol) (vals : list IVal)
    : option (list IVal) * Z * list Z :=
  match cols with
  | [] => (Some [], nx, [])
  | c :: cs =>
    let key :=
      match vals with
      | v :: _ => is_null v && c_pk c
      | [] => c_pk c
      end in
    if key then
      let '(r, nx', ks) := expand_cols now (wrap32 (nx + 1)) cs (tail vals) in
      ((fun l => mkV TInt (PNum nx) :: l) <$> r, nx', nx :: ks)
    else
      let x := match vals with
               | v :: _ => Some v
               | [] => missing_value now c
               end in
      match x with
      | None => (None, nx, [])
      | Some v =>
        let '(r, nx', ks) := expand_cols now nx cs (tail vals) in
        (cons v <$> r, nx', ks)
      end
  end.

(** table_heap.rs 1229-1301, expand_values_for_schema. *)
Definition expand (now nx : Z) (cols : list ICol) (vals : list IVal)
    : option (list IVal) * Z * list Z :=
  if (length cols <? length vals)%nat then (None, nx, [])
  else expand_cols now nx cols vals.

(** Put a row at the end of a table, when the heap takes it. *)
Definition add_row (t : string) (row : list IVal) (w : World) : World :=
  match w_tabs w !! t with
  | Some tb => mkW (<[t := mkT (t_cols tb) (t_rows tb ++ [row])]> (w_tabs w)) (w_next w) (w_gen w)
  | None => w
  end.

(** The counter after an expansion. *)
Definition with_keys (nx : Z) (ks : list Z) (w : World) : World :=
  mkW (w_tabs w) nx (w_gen w ++ ks).

(** table_heap.rs 1174-1226, insert_tuple_from_values: expands the values, then puts the row on a
    page ([fits]: whether it could). *)
Definition heap_insert_values (fits : list IVal -> bool) (now : Z) (t : string) (vals : list IVal)
    (w : World) : bool * World :=
  match w_tabs w !! t with
  | None => (false, w)
  | Some tb =>
    let '(r, nx, ks) := expand now (w_next w) (t_cols tb) vals in
    let w1 := with_keys nx ks w in
    match r with
    | None => (false, w1)
    | Some row => if fits row then (true, add_row t row w1) else (false, w1)
    end
  end.

(** transactional_table_heap.rs 337-386, insert_tuple_from_values_with_catalog (what
    insert_tuple_from_values calls): expands the values and passes the result on to
    [heap_insert_values], which expands it once more.  The transaction is running and gets its
    lock, or [fits] refuses. *)
Definition txn_insert_values (fits : list IVal -> bool) (now : Z) (t : string) (vals : list IVal)
    (w : World) : bool * World :=
  match w_tabs w !! t with
  | None => (false, w)
  | Some tb =>
    let '(r, nx, ks) := expand now (w_next w) (t_cols tb) vals in
    let w1 := with_keys nx ks w in
    match r with
    | None => (false, w1)
    | Some row => heap_insert_values fits now t row w1
    end
  end.

(** transactional_table_heap.rs 865-938, bulk_insert_tuples_from_values_async: stops at the first
    row that fails and leaves the earlier ones. *)
Fixpoint bulk_insert (fits : list IVal -> bool) (now : Z) (t : string) (rows : list (list IVal))
    (w : World) : bool * World :=
  match rows with
  | [] => (true, w)
  | vals :: rest =>
    match w_tabs w !! t with
    | None => (false, w)
    | Some tb =>
      let '(r, nx, ks) := expand now (w_next w) (t_cols tb) vals in
      let w1 := with_keys nx ks w in
      match r with
      | None => (false, w1)
      | Some row => if fits row then bulk_insert fits now t rest (add_row t row w1)
                    else (false, w1)
      end
    end
  end.

(** catalog/schema.rs 304-311, get_column_index: the first column of that name. *)
Fixpoint col_index (name : string) (cols : list ICol) : option nat :=
  match cols with
  | [] => None
  | c :: cs => if String.eqb (c_name c) name then Some 0%nat
               else S <$> col_index name cs
  end.

Section Cast.
(** types_db/value.rs 408-900, cast_to: None is an error.  What the theorems need of it is
    [cast_ok] in InsProofs.v. *)
Context (cast : IVal -> ITy -> option IVal).

(** schema_manager.rs 1431-1439, cast_value_to_type. *)
Definition cast_or_null (v : IVal) (ty : ITy) : IVal :=
  match cast v ty with Some u => u | None => mkV ty PNull end.

(** schema_manager.rs 1348-1380, detect_name_based_mapping. *)
Definition by_name (src target : list ICol) : bool :=
  match src with
  | [] => false
  | _ => forallb (fun s => match col_index (c_name s) target with Some _ => true | None => false end)
           src
  end.

(** schema_manager.rs 1397-1416, find_value_by_name.  (Line 1409 panics when the source row is
    shorter than its schema; rows of a schema have its length, tuple.rs 434-450.) *)
Definition value_by_name (name : string) (vals : list IVal) (src : list ICol) (ty : ITy) : IVal :=
  match col_index name src with
  | Some i => match vals !! i with Some v => cast_or_null v ty | None => mkV ty PNull end
  | None => mkV ty PNull
  end.

(** schema_manager.rs 1310-1328, the positional mapping. *)
Fixpoint by_position (vals : list IVal) (target : list ICol) : list IVal :=
  match target with
  | [] => []
  | c :: cs =>
    match vals with
    | v :: vs => cast_or_null v (c_ty c) :: by_position vs cs
    | [] => mkV (c_ty c) PNull :: by_position [] cs
    end
  end.

(** schema_manager.rs 1280-1332, map_values_to_schema. *)
Definition map_values (vals : list IVal) (src target : list ICol) : list IVal :=
  if by_name src target
  then map (fun c => value_by_name (c_name c) vals src (c_ty c)) target
  else by_position vals target.

(** plans/values_plan.rs 111-165, evaluate, after the expressions: a value whose type is not the
    column's is cast to it, or the statement fails. *)
Fixpoint eval_row (src : list ICol) (vals : list IVal) : option (list IVal) :=
  match src, vals with
  | c :: cs, v :: vs =>
    match (if bool_decide (v_ty v = c_ty c) then Some v else cast v (c_ty c)) with
    | Some u => cons u <$> eval_row cs vs
    | None => None
    end
  | _, _ => Some []
  end.

Fixpoint eval_rows (src : list ICol) (rows : list (list IVal)) : option (list (list IVal)) :=
  match rows with
  | [] => Some []
  | r :: rs =>
    match eval_row src r with
    | Some x => cons x <$> eval_rows src rs
    | None => None
    end
  end.

(** insert_executor.rs 360-407, validate_foreign_key_reference_with_context. *)
Definition fk_ref (w : World) (f : IFk) (v : IVal) : bool :=
  match w_tabs w !! fk_table f with
  | None => false
  | Some tb =>
    match col_index (fk_col f) (t_cols tb) with
    | None => false
    | Some i => existsb (fun r : list IVal =>
                           match r !! i with Some u => veq u v | None => false end) (t_rows tb)
    end
  end.

(** insert_executor.rs 289-329, validate_foreign_key_constraints_with_context. *)
Fixpoint fk_check (w : World) (cols : list ICol) (vals : list IVal) : bool :=
  match cols with
  | [] => true
  | c :: cs =>
    match c_fk c with
    | None => fk_check w cs (tail vals)
    | Some f =>
      match vals with
      | [] => false
      | v :: _ => (is_null v || fk_ref w f v) && fk_check w cs (tail vals)
      end
    end
  end.

(** The source of an INSERT: VALUES rows, or the output columns and the rows of a SELECT. *)
Inductive Src := SVals (rows : list (list IVal)) | SSel (cols : list ICol) (rows : list (list IVal)).

(** insert_executor.rs 614-656: the rows of the child, one by one. *)
Fixpoint insert_loop (fits : list IVal -> bool) (now : Z) (t : string) (src : list ICol)
    (rows : list (list IVal)) (w : World) : bool * World :=
  match rows with
  | [] => (true, w)
  | vals :: rest =>
    match w_tabs w !! t with
    | None => (false, w)
    | Some tb =>
      let m := map_values vals src (t_cols tb) in
      if fk_check w (t_cols tb) m then
        let '(b, w1) := txn_insert_values fits now t m w in
        if b then insert_loop fits now t src rest w1 else (false, w1)
      else (false, w)
    end
  end.

(** plan_builder.rs 3101-3121: the columns of the VALUES plan. *)
Fixpoint listed (names : list string) (cols : list ICol) : option (list ICol) :=
  match names with
  | [] => Some []
  | n :: ns =>
    match col_index n cols with
    | Some i => match cols !! i with
                | Some c => cons c <$> listed ns cols
                | None => None
                end
    | None => None
    end
  end.

(** plan_builder.rs 3079-3148, build_insert_plan, 3291-3316, build_values_plan (the number of
    values is checked before anything runs) and schema_manager.rs 815-853, schemas_compatible;
    then insert_executor.rs 596-661.  The direct values of an insert plan are empty for a plan made
    from SQL (logical_plan.rs 3088-3094).  insert_executor.rs 607-611 runs the child to its end
    first, so that an error in any of its rows comes before the first insertion. *)
Definition insert_sql (fits : list IVal -> bool) (now : Z) (t : string) (names : list string)
    (src : Src) (w : World) : bool * World :=
  match w_tabs w !! t with
  | None => (false, w)
  | Some tb =>
    match (match names with [] => Some (t_cols tb) | _ => listed names (t_cols tb) end) with
    | None => (false, w)
    | Some vs =>
      match src with
      | SVals rows =>
        if forallb (fun r : list IVal => (length r =? length vs)%nat) rows then
          match eval_rows vs rows with
          | Some ev => insert_loop fits now t vs ev w
          | None => (false, w)
          end
        else (false, w)
      | SSel scols rows =>
        if bool_decide (map c_ty scols = map c_ty vs) then
          if forallb (fun r : list IVal => (length r =? length scols)%nat) rows
          then insert_loop fits now t scols rows w
          else (false, w)
        else (false, w)
      end
    end
  end.
End Cast.

(** update_executor.rs 124-153: the assignments of one row, each evaluated on the row as it was.
    None: an evaluation error, or an index out of range (which plan_builder.rs 3232-3245 excludes). *)
Fixpoint assign_all (asg : list (nat * (list IVal -> option IVal))) (old row : list IVal)
    : option (list IVal) :=
  match asg with
  | [] => Some row
  | (i, f) :: rest =>
    if (i <? length row)%nat then
      match f old with
      | Some v => assign_all rest old (<[i := v]> row)
      | None => None
      end
    else None
  end.

(** update_executor.rs 119-182: the rows that the child passes on, in turn; an error leaves the
    rows before it updated.  [pick]: the WHERE clause. *)
Fixpoint update_rows (fits : list IVal -> bool) (pick : list IVal -> bool)
    (asg : list (nat * (list IVal -> option IVal))) (rows : list (list IVal))
    : bool * list (list IVal) :=
  match rows with
  | [] => (true, [])
  | r :: rs =>
    if pick r then
      match assign_all asg r r with
      | Some r' => if fits r' then let '(b, rs') := update_rows fits pick asg rs in (b, r' :: rs')
                   else (false, r :: rs)
      | None => (false, r :: rs)
      end
    else let '(b, rs') := update_rows fits pick asg rs in (b, r :: rs')
  end.

Definition update_sql (fits pick : list IVal -> bool)
    (asg : list (nat * (list IVal -> option IVal))) (t : string) (w : World) : bool * World :=
  match w_tabs w !! t with
  | None => (false, w)
  | Some tb =>
    let '(b, rs) := update_rows fits pick asg (t_rows tb) in
    (b, mkW (<[t := mkT (t_cols tb) rs]> (w_tabs w)) (w_next w) (w_gen w))
  end.

(** delete_executor.rs 298-343.  (A refused row ends the statement: that is the outcome argument
    of an update; here every picked row is deleted.) *)
Definition delete_sql (pick : list IVal -> bool) (t : string) (w : World) : bool * World :=
  match w_tabs w !! t with
  | None => (false, w)
  | Some tb =>
    (true, mkW (<[t := mkT (t_cols tb) (List.filter (fun r => negb (pick r)) (t_rows tb))]> (w_tabs w))
             (w_next w) (w_gen w))
  end.

(** catalog/database.rs 419-450, validate_foreign_key_constraints. *)
Definition fks_exist (w : World) (cols : list ICol) : bool :=
  forallb (fun c => match c_fk c with
                    | None => true
                    | Some f => match w_tabs w !! fk_table f with
                                | None => false
                                | Some tb => match col_index (fk_col f) (t_cols tb) with
                                             | Some _ => true | None => false end
                                end
                    end) cols.

(** catalog/database.rs 373-416, create_table. *)
Definition create_sql (t : string) (cols : list ICol) (w : World) : bool * World :=
  match w_tabs w !! t with
  | Some _ => (false, w)
  | None => if fks_exist w cols
            then (true, mkW (<[t := mkT cols []]> (w_tabs w)) (w_next w) (w_gen w))
            else (false, w)
  end.

(** types_db/value.rs 408-417 and the casts between the integer types, 483-585; every other cast is
    left out (an error here). *)
Definition int_range (ty : ITy) : option (Z * Z) :=
  match ty with
  | TTiny => Some (-128, 127)
  | TSmall => Some (-32768, 32767)
  | TInt => Some (-2147483648, 2147483647)
  | TBig => Some (-9223372036854775808, 9223372036854775807)
  | _ => None
  end.
Definition cast_ints (v : IVal) (ty : ITy) : option IVal :=
  if bool_decide (v_ty v = ty) then Some v
  else if is_null v then Some (mkV ty PNull)
  else match v_pay v, int_range (v_ty v), int_range ty with
       | PNum z, Some _, Some (lo, hi) =>
         if (lo <=? z) && (z <=? hi) then Some (mkV ty (PNum z)) else None
       | _, _, _ => None
       end.

(** What can happen to the tables. *)
Inductive IOp :=
| OCreate (t : string) (cols : list ICol)
| OInsert (fits : list IVal -> bool) (now : Z) (t : string) (names : list string) (src : Src)
| OValues (fits : list IVal -> bool) (now : Z) (t : string) (vals : list IVal)
| OBulk (fits : list IVal -> bool) (now : Z) (t : string) (rows : list (list IVal))
| OUpdate (fits pick : list IVal -> bool) (asg : list (nat * (list IVal -> option IVal))) (t : string)
| ODelete (pick : list IVal -> bool) (t : string).

Definition istep (cast : IVal -> ITy -> option IVal) (o : IOp) (w : World) : bool * World :=
  match o with
  | OCreate t cols => create_sql t cols w
  | OInsert fits now t names src => insert_sql cast fits now t names src w
  | OValues fits now t vals => txn_insert_values fits now t vals w
  | OBulk fits now t rows => bulk_insert fits now t rows w
  | OUpdate fits pick asg t => update_sql fits pick asg t w
  | ODelete pick t => delete_sql pick t w
  end.

Definition irun (cast : IVal -> ITy -> option IVal) (os : list IOp) (w : World) : World :=
  fold_left (fun w o => snd (istep cast o w)) os w.
