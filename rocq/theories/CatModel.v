(** * The catalog: databases, tables and indexes by name and by OID

    Models src/catalog/database.rs, the parts of src/catalog/catalog_impl.rs and
    src/catalog/system_catalog.rs that SQL statements and start-up reach, and the registration of
    tables with the transaction manager (src/concurrency/transaction_manager.rs:1163-1166).

    Simplifications:
    - A column is its name and the column its foreign key refers to, if any.
    - A table's heap is known by its first page.  The buffer pool hands out page numbers in order
      (src/buffer/buffer_pool_manager_async.rs:423-445, 1085-1087); whether it has a free frame
      when asked for a page is an argument of the call.
    - The rows of the system tables are kept as a list, in the order a scan returns them; whether
      a row could be stored is an argument of the call (the outcome is ignored, 756 and 795).
      Encoding a schema with postcard and decoding it again gives it back.
    - 64-bit counters do not wrap around. *)
From stdpp Require Import strings gmap list.
From Coq Require Import NArith.
From Verif Require Import Bytes PageModel TheapModel ExprModel BtreeModel.
Local Open Scope N_scope.

Record column := Col { c_name : string; c_fk : option (string * string) }.
Definition schema := list column.

(** src/storage/table/table_heap.rs, TableInfo.  [t_last] is the last page the heap was opened
    with. *)
Record tinfo := TInfo { t_name : string; t_oid : N; t_schema : schema; t_first : N; t_last : N }.

(** src/storage/index/mod.rs, IndexInfo. *)
Record iinfo := IInfo { i_name : string; i_oid : N; i_table : string; i_attrs : list nat; i_unique : bool }.

(** database.rs:234-246. *)
Record db := Db {
  d_tables : gmap N tinfo; d_names : gmap string N; d_next : N;
  d_indexes : gmap N iinfo; d_inames : gmap string N; d_inext : N }.

(** system_catalog.rs:178-187. *)
Definition SYS_TABLES_OID : N := 1.
Definition SYS_COLUMNS_OID : N := 4.

(** database.rs:255-275, new, and 323-353, with_existing_data, as Catalog::new calls it. *)
Definition new_db : db := Db ∅ ∅ (SYS_COLUMNS_OID + 1) ∅ ∅ 0.

(** 459-463, get_table. *)
Definition db_table (d : db) (n : string) : option tinfo :=
  match d_names d !! n with Some oid => d_tables d !! oid | None => None end.

(** schema.rs:304-311, get_column_index (whether there is one). *)
Definition has_column (sc : schema) (c : string) : bool :=
  existsb (fun x => bool_decide (c_name x = c)) sc.

(** 419-450, validate_foreign_key_constraints. *)
Definition fks_ok (d : db) (sc : schema) : bool :=
  forallb (fun x =>
    match c_fk x with
    | None => true
    | Some (t, c) => match d_names d !! t with
                     | None => false
                     | Some _ => match db_table d t with Some i => has_column (t_schema i) c | None => false end
                     end
    end) sc.

(** 373-410, create_table; [page] is the first page of the new heap (TableHeap::new, 315-342 of
    table_heap.rs).  Registering the heap is done by the caller below. *)
Definition db_create_table (n : string) (sc : schema) (page : N) (d : db) : option (tinfo * db) :=
  match d_names d !! n with
  | Some _ => None
  | None =>
      if fks_ok d sc
      then let i := TInfo n (d_next d) sc page page in
           Some (i, Db (<[d_next d := i]> (d_tables d)) (<[n := d_next d]> (d_names d)) (d_next d + 1)
                       (d_indexes d) (d_inames d) (d_inext d))
      else None
  end.

(** 478-537, create_index, without the index's contents (see [populate]). *)
Definition db_create_index (n t : string) (attrs : list nat) (u : bool) (d : db) : option (iinfo * db) :=
  match d_names d !! t with
  | None => None
  | Some _ =>
      match d_inames d !! n with
      | Some _ => None
      | None =>
          let i := IInfo n (d_inext d) t attrs u in
          Some (i, Db (d_tables d) (d_names d) (d_next d)
                      (<[d_inext d := i]> (d_indexes d)) (<[n := d_inext d]> (d_inames d)) (d_inext d + 1))
      end
  end.

(** 540-550, get_table_indexes. *)
Definition db_table_indexes (d : db) (t : string) : list iinfo :=
  match d_names d !! t with
  | None => []
  | Some _ => List.filter (fun i => bool_decide (i_table i = t)) ((map_to_list (d_indexes d)).*2)
  end.

(** 561-568, add_index. *)
Definition db_add_index (i : iinfo) (d : db) : db :=
  Db (d_tables d) (d_names d) (d_next d) (<[i_oid i := i]> (d_indexes d)) (d_inames d) (d_inext d).

(** 584-592, load_tables_from_catalog. *)
Definition db_load1 (d : db) (i : tinfo) : db :=
  Db (<[t_oid i := i]> (d_tables d)) (<[t_name i := t_oid i]> (d_names d)) (N.max (d_next d) (t_oid i + 1))
     (d_indexes d) (d_inames d) (d_inext d).
Definition db_load (l : list tinfo) (d : db) : db := fold_left db_load1 l d.

(** system_catalog.rs:266-277. *)
Record row := Row { r_oid : N; r_name : string; r_first : N; r_last : N; r_schema : schema }.

(** catalog_impl.rs:261-274, the table of heaps of the transaction manager, the page counter of
    the buffer pool, and the file catalog.snapshot. *)
Record world := W {
  w_dbs : gmap string db; w_cur : string;
  w_rows : list row; w_irows : list iinfo;
  w_heaps : gmap N N; w_page : N;
  w_snap : option (list row) }.

(** database.rs:385-391: the page of a new heap. *)
Definition new_heap_page (room : bool) (w : world) : N * N :=
  if room then (w_page w, w_page w + 1) else (no_page, w_page w).

(** 708-733, row_to_table_info. *)
Definition row_info (r : row) : tinfo :=
  TInfo (r_name r) (r_oid r) (r_schema r) (r_first r) (if r_last r =? no_page then r_first r else r_last r).

(** 741-763, record_system_table. *)
Definition info_row (i : tinfo) : row := Row (t_oid i) (t_name i) (t_first i) (t_last i) (t_schema i).

(** 671 and 683: the rows that are taken. *)
Definition user_rows (l : list row) : list row := List.filter (fun r => negb (r_oid r <=? SYS_TABLES_OID)) l.

(** 659-703, rebuild_from_system_catalog. *)
Definition rebuild (w : world) : world :=
  let rows := user_rows (w_rows w) in
  let infos := map row_info (match w_snap w with Some l => user_rows l | None => [] end ++ rows) in
  W (alter (db_load infos) (w_cur w) (w_dbs w)) (w_cur w) (w_rows w) (w_irows w) (w_heaps w) (w_page w)
    (match rows with [] => w_snap w | _ => Some rows end).

(** src/common/db_instance.rs:445-544, as far as the catalog goes: a new buffer pool (whose page
    counter starts at 0: buffer_pool_manager_async.rs:332), a new transaction manager, Catalog::new
    (282-356, with the four heaps of system_catalog.rs:432-475; the pool has room for these) and
    rebuild_from_system_catalog. *)
Definition boot (snap : option (list row)) : world :=
  rebuild (W {[ "default"%string := new_db ]} "default"%string [] [] ∅ 4 snap).

(** Calls.  [OTable] comes with: does the pool have a frame, can the row be stored. *)
Inductive op :=
| ODatabase (n : string)
| OUse (n : string)
| OTable (n : string) (sc : schema) (room stored : bool)
| OIndex (n t : string) (attrs : list nat) (u stored : bool).

Definition set_db (d : db) (w : world) : world :=
  W (<[w_cur w := d]> (w_dbs w)) (w_cur w) (w_rows w) (w_irows w) (w_heaps w) (w_page w) (w_snap w).

(** catalog_impl.rs:365-375, create_database; 384-393, use_database; 463-471, create_table;
    512-550, create_index. *)
Definition step (o : op) (w : world) : bool * world :=
  match o with
  | ODatabase n =>
      match w_dbs w !! n with
      | Some _ => (false, w)
      | None => (true, W (<[n := new_db]> (w_dbs w)) (w_cur w) (w_rows w) (w_irows w) (w_heaps w) (w_page w) (w_snap w))
      end
  | OUse n =>
      match w_dbs w !! n with
      | None => (false, w)
      | Some _ => (true, W (w_dbs w) n (w_rows w) (w_irows w) (w_heaps w) (w_page w) (w_snap w))
      end
  | OTable n sc room stored =>
      match w_dbs w !! w_cur w with
      | None => (false, w)
      | Some d =>
          let '(page, next) := new_heap_page room w in
          match db_create_table n sc page d with
          | None => (false, w)
          | Some (i, d2) =>
              (true, W (<[w_cur w := d2]> (w_dbs w)) (w_cur w)
                       (if stored then w_rows w ++ [info_row i] else w_rows w) (w_irows w)
                       (<[t_oid i := t_first i]> (w_heaps w)) next (w_snap w))
          end
      end
  | OIndex n t attrs u stored =>
      match w_dbs w !! w_cur w with
      | None => (false, w)
      | Some d =>
          match db_create_index n t attrs u d with
          | None => (false, w)
          | Some (i, d2) =>
              (true, W (<[w_cur w := db_add_index i d2]> (w_dbs w)) (w_cur w) (w_rows w)
                       (if stored then w_irows w ++ [i] else w_irows w) (w_heaps w) (w_page w) (w_snap w))
          end
      end
  end.

Fixpoint run (ops : list op) (w : world) : list bool * world :=
  match ops with
  | [] => ([], w)
  | o :: ops => let '(b, w1) := step o w in let '(bs, w2) := run ops w1 in (b :: bs, w2)
  end.

(** Catalog::get_database(d)?.get_table(n). *)
Definition table_in (w : world) (d n : string) : option tinfo :=
  match w_dbs w !! d with Some x => db_table x n | None => None end.

(** catalog_impl.rs:480-482, get_table. *)
Definition get_table (w : world) (n : string) : option tinfo := table_in w (w_cur w) n.

(** Catalog::get_database(d)?.get_table_indexes(t). *)
Definition indexes_in (w : world) (d t : string) : list iinfo :=
  match w_dbs w !! d with Some x => db_table_indexes x t | None => [] end.

(** sql/execution/executors/create_table_executor.rs:236-263: [Some true] if the statement
    answers without an error. *)
Definition sql_create_table (n : string) (sc : schema) (if_not_exists room stored : bool) (w : world) : bool * world :=
  match if_not_exists, get_table w n with
  | true, Some _ => (true, w)
  | _, _ => step (OTable n sc room stored) w
  end.

(** A process that ends and starts again on the same directory: only the file is kept.  (What
    recovery does to pages is C37; it does not read or write system tables.) *)
Definition restart (w : world) : world := boot (w_snap w).

Fixpoint lives (l : list (list op)) (w : world) : world :=
  match l with [] => w | ops :: l => lives l (restart (run ops w).2) end.

(** ** Filling a new index: database.rs:634-695

    [keys] gives the values of the row at the key columns it has (664-668).  The RID is the one
    the scan reports (658).  The tree has order 4 (518). *)
Section populate.
  Context (keys : list N -> list val).

  Definition entries_of (l : list (TheapModel.rid * (TheapModel.rid * (tmeta * list N)))) : list entry :=
    omap (fun x => match keys x.2.2.2 with [k] => Some (k, (x.1.1, N.of_nat x.1.2)) | _ => None end) l.

  Fixpoint insert_all (l : list entry) (ix : index) : option index :=
    match l with
    | [] => Some ix
    | (k, r) :: l => match BtreeModel.insert 4 ix k r with Some (_, ix) => insert_all l ix | None => None end
    end.

  Definition populate (fuel : nat) (h : heap) : option index := insert_all (entries_of (scan fuel h)) new_index.
End populate.

(** table_heap.rs:351-370, reopen. *)
Definition reopen (first last : N) (h : heap) : heap :=
  Heap (h_pages h) first (if last =? no_page then first else last).
