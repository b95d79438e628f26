(** * The catalog: C81, C82, C83 *)
From Coq Require Import Sorting.Permutation Sorting.Sorted.
From stdpp Require Import strings gmap list.
From Coq Require Import NArith ZArith Lia.
From Verif Require Import Bytes PageModel PageSpec TheapModel TheapSpec TheapProps ExprModel BtreeModel BtreeSpec BtreeProps CatModel CatSpec CatProofs.
Local Open Scope N_scope.
Local Open Scope string_scope.

Local Definition c (n : string) : column := Col n None.

(** ** C81: names and OIDs *)

(** C81: in any history of CREATE DATABASE, USE, CREATE TABLE and CREATE INDEX on a new catalog,
    each statement answers as the specification says, a table is found under its name, in its
    database, with its definition, and the indexes of a table are the ones created on it. *)
Theorem c81_names : forall ops bs w, run ops (boot None) = (bs, w) ->
  exists s, srun ops spec0 bs s /\ w_cur w = s_cur s /\
    (forall d, is_Some (w_dbs w !! d) <-> is_Some (s_dbs s !! d)) /\
    (forall d n, option_map t_schema (table_in w d n) = sp_table s d n) /\
    (forall d n i, table_in w d n = Some i -> t_name i = n) /\
    (forall d t i, In i (indexes_in w d t) -> i_table i = t) /\
    (forall d t n a u, sp_index s d n t a u <-> exists i, In i (indexes_in w d t) /\ i_name i = n /\ i_attrs i = a /\ i_unique i = u).
Proof.
  intros ops bs w E. destruct (run_ok _ _ _ _ _ wrep_boot E) as (s & S & H). exists s. split; [done|]. split; [apply H|].
  assert (IX : forall d t i, In i (indexes_in w d t) <->
     exists x y, w_dbs w !! d = Some x /\ s_dbs s !! d = Some y /\ rep x y /\ i_table i = t /\ d_indexes x !! i_oid i = Some i).
  { intros d t i. unfold indexes_in. split.
    - destruct (w_dbs w !! d) as [x|] eqn:Ex; [|intros []]. destruct (wr_some _ _ _ _ H Ex) as (y & Ey & R).
      unfold db_table_indexes. destruct (d_names x !! t) eqn:En; [|intros []]. intros Hi. apply filter_In in Hi as [Hi Ht].
      apply bool_decide_eq_true in Ht. apply elem_of_list_In, elem_of_list_fmap in Hi as ([o i'] & -> & Hi).
      apply elem_of_map_to_list in Hi. cbn [snd] in Ht |- *. exists x, y. split; [done|]. split; [done|]. split; [done|]. split; [done|].
      destruct (ok_ix _ (rp_ok _ _ R) _ _ Hi) as (_ & _ & -> & _). exact Hi.
    - intros (x & y & Ex & Ey & R & Ht & Hi). rewrite Ex. unfold db_table_indexes.
      destruct (ok_ix _ (rp_ok _ _ R) _ _ Hi) as (_ & _ & _ & [o Ho]). rewrite Ht in Ho. rewrite Ho.
      apply filter_In. split; [|by apply bool_decide_eq_true]. apply elem_of_list_In, elem_of_list_fmap.
      exists (i_oid i, i). split; [done|]. by apply elem_of_map_to_list. }
  split; [|split; [|split; [|split]]].
  - intros d. pose proof (wr_dbs _ _ H d) as R. destruct (w_dbs w !! d), (s_dbs s !! d); try done; split; intros []; done.
  - intros d n. unfold table_in, sp_table. pose proof (wr_dbs _ _ H d) as R.
    destruct (w_dbs w !! d), (s_dbs s !! d); try done. apply R.
  - intros d n i. unfold table_in. destruct (w_dbs w !! d) as [x|] eqn:Ex; [|discriminate]. intros Hi.
    destruct (wr_some _ _ _ _ H Ex) as (y & _ & R). by apply (db_table_spec _ _ _ (rp_ok _ _ R)) in Hi as (_ & _ & ->).
  - intros d t i Hi. by apply IX in Hi as (x & y & _ & _ & _ & -> & _).
  - intros d t n a u. split.
    + intros (y & Ey & Hy). pose proof (wr_dbs _ _ H d) as R. rewrite Ey in R. destruct (w_dbs w !! d) as [x|] eqn:Ex; [|done].
      destruct (proj1 (rp_ix _ _ R n t a u) Hy) as (o & Ho). exists (IInfo n o t a u). split; [|done]. apply IX. exists x, y. auto.
    + intros (i & Hi & <- & <- & <-). apply IX in Hi as (x & y & Ex & Ey & R & <- & Hi). exists y. split; [done|].
      apply (rp_ix _ _ R). exists (i_oid i). by destruct i.
Qed.
Print Assumptions c81_names.

(** Statements that fail leave everything as it was, and nothing that is created later, in this
    or another database, changes a table's entry (its OID, definition and first page). *)
Theorem c81_stable : forall ops more d n i,
  table_in (run ops (boot None)).2 d n = Some i -> table_in (run (ops ++ more) (boot None)).2 d n = Some i.
Proof.
  intros ops more d n i Hi. rewrite run_app. cbn [snd]. destruct (run ops (boot None)) as [bs w] eqn:E.
  destruct (run_ok _ _ _ _ _ wrep_boot E) as (s & _ & H). by eapply run_keeps.
Qed.
Print Assumptions c81_stable.

Theorem c81_failed : forall o w, (step o w).1 = false -> (step o w).2 = w.
Proof.
  intros o w. destruct o as [n|n|n sc room stored|n t attrs u stored]; cbn [step]; repeat case_match; cbn; done.
Qed.
Print Assumptions c81_failed.

(** CREATE TABLE IF NOT EXISTS of a table that exists succeeds and changes nothing; without IF
    NOT EXISTS it fails and changes nothing. *)
Theorem c81_if_not_exists : forall ops n i sc b room stored,
  let w := (run ops (boot None)).2 in
  get_table w n = Some i -> sql_create_table n sc b room stored w = (b, w).
Proof.
  intros ops n i sc b room stored w Hi. subst w. destruct (run ops (boot None)) as [bs w] eqn:E. cbn [snd] in *.
  destruct (run_ok _ _ _ _ _ wrep_boot E) as (s & _ & H). unfold sql_create_table. rewrite Hi. destruct b; [done|]. cbn [step].
  destruct (wr_in _ _ H) as [d Ed]. rewrite Ed. unfold get_table, table_in in Hi. rewrite Ed in Hi.
  destruct (new_heap_page room w) as [p next]. destruct (wr_some _ _ _ _ H Ed) as (x & _ & R).
  apply (db_table_spec _ _ _ (rp_ok _ _ R)) in Hi as (Hi & _). unfold db_create_table. by rewrite Hi.
Qed.
Print Assumptions c81_if_not_exists.

(** C81, partial: two tables of one database have different OIDs, by which they are found too; no
    two tables, of whatever databases, have the same first page; and as long as there is only the
    default database, the transaction manager finds each table's own heap under its OID.  The
    full claim is that also with several databases. *)
Theorem c81_oids_partial : forall ops,
  let w := (run ops (boot None)).2 in
  (forall d n n2 i j, table_in w d n = Some i -> table_in w d n2 = Some j -> t_oid i = t_oid j -> n = n2) /\
  (forall d x n i, w_dbs w !! d = Some x -> table_in w d n = Some i -> d_tables x !! t_oid i = Some i /\ 5 <= t_oid i) /\
  (forall d n i d2 n2 j, table_in w d n = Some i -> table_in w d2 n2 = Some j -> t_first i <> no_page ->
     t_first i = t_first j -> d = d2 /\ n = n2) /\
  (forallb one_database ops = true -> forall d n i, table_in w d n = Some i -> w_heaps w !! t_oid i = Some (t_first i)).
Proof.
  intros ops w. subst w. destruct (run ops (boot None)) as [bs w] eqn:E. cbn [snd] in *.
  destruct (run_ok _ _ _ _ _ wrep_boot E) as (s & _ & H). split; [|split; [|split]].
  - intros d n n2 i j. unfold table_in. destruct (w_dbs w !! d) as [x|] eqn:Ex; [|discriminate].
    destruct (wr_some _ _ _ _ H Ex) as (y & _ & R). intros Hi Hj Ho.
    apply (db_table_spec _ _ _ (rp_ok _ _ R)) in Hi as (_ & Hi & <-). apply (db_table_spec _ _ _ (rp_ok _ _ R)) in Hj as (_ & Hj & <-).
    congruence.
  - intros d x n i Ex. unfold table_in. rewrite Ex. destruct (wr_some _ _ _ _ H Ex) as (y & _ & R). intros Hi.
    apply (db_table_spec _ _ _ (rp_ok _ _ R)) in Hi as (_ & Hi & _). split; [done|]. apply (ok_tab _ (rp_ok _ _ R)) in Hi. tauto.
  - pose proof (pages_run ops _ _ wrep_boot pages_boot) as (_ & P & _). rewrite E in P. exact P.
  - intros F. pose proof (single_run ops _ _ wrep_boot F single_boot) as (_ & d & Ed & Hh). rewrite E in Ed, Hh. cbn [snd] in *.
    intros d2 n i. unfold table_in. rewrite Ed. destruct (decide ("default" = d2)) as [<-|]; [|by rewrite lookup_singleton_ne].
    rewrite lookup_singleton. apply Hh.
Qed.
Print Assumptions c81_oids_partial.

(** The databases number their tables independently, but the transaction manager has one table of
    heaps: after CREATE DATABASE b; USE b; CREATE TABLE u, the heap it finds for the OID of the
    first table of the default database is the one of u.  Committing and rolling back rows of the
    first table then goes to the pages of the other. *)
Theorem c81_oid_shared_refuted : exists ops i j,
  (run ops (boot None)).1 = map (fun _ => true) ops /\
  table_in (run ops (boot None)).2 "default" "t" = Some i /\ table_in (run ops (boot None)).2 "b" "u" = Some j /\
  t_oid i = t_oid j /\ t_first i <> t_first j /\ w_heaps (run ops (boot None)).2 !! t_oid i = Some (t_first j).
Proof.
  exists [OTable "t" [c "x"] true true; ODatabase "b"; OUse "b"; OTable "u" [c "y"] true true].
  exists (TInfo "t" 5 [c "x"] 4 4), (TInfo "u" 5 [c "y"] 5 5). rewrite boot_none.
  repeat split; try (vm_compute; reflexivity). discriminate.
Qed.
Print Assumptions c81_oid_shared_refuted.

(** A foreign key to the table itself is refused, whatever the table. *)
Theorem c81_self_reference_refuted : forall ops n sc x y room stored,
  In x sc -> c_fk x = Some (n, y) ->
  (step (OTable n sc room stored) (run ops (boot None)).2).1 = false.
Proof.
  intros ops n sc x y room stored Hx Hf. destruct (run ops (boot None)) as [bs w] eqn:E. cbn [snd].
  destruct (run_ok _ _ _ _ _ wrep_boot E) as (s & _ & H). destruct (step (OTable n sc room stored) w) as [b w2] eqn:E2. cbn [fst].
  destruct (step_ok _ _ _ _ _ H E2) as (s2 & S & _). cbn [sstep] in S. destruct S as (d & Ed & [(M & -> & _)|(_ & -> & _)]); [|done].
  destruct M as [M1 M2]. destruct (M2 x n y Hx Hf) as (sc2 & c2 & M3 & _). rewrite M1 in M3. discriminate.
Qed.
Print Assumptions c81_self_reference_refuted.

Example c81_ex :
  let ops := [OTable "t" [c "x"] true true; OTable "t" [c "y"] true true; OTable "u" [Col "z" (Some ("t", "x"))] true true;
              OTable "v" [Col "z" (Some ("t", "y"))] true true; OIndex "i" "u" [0%nat] false true; OIndex "i" "t" [0%nat] false true;
              ODatabase "b"; OUse "b"; OTable "t" [c "w"] true true; OIndex "i" "u" [0%nat] false true] in
  (run ops (boot None)).1 = [true; false; true; false; true; false; true; true; true; false] /\
  table_in (run ops (boot None)).2 "default" "u" = Some (TInfo "u" 6 [Col "z" (Some ("t", "x"))] 5 5) /\
  get_table (run ops (boot None)).2 "t" = Some (TInfo "t" 5 [c "w"] 6 6) /\
  indexes_in (run ops (boot None)).2 "default" "u" = [IInfo "i" 0 "u" [0%nat] false].
Proof. rewrite boot_none. repeat split; vm_compute; reflexivity. Qed.

(** ** C82: the catalog after a restart *)

(** However often the database is started on the same directory, and whatever was created in
    between, after the last start there is only the database "default", without any table. *)
Theorem c82_restart_forgets_refuted : forall l,
  w_dbs (lives l (boot None)) = {[ "default" := new_db ]} /\ forall d n, table_in (lives l (boot None)) d n = None.
Proof.
  intros l. rewrite lives_none by (auto; reflexivity). rewrite boot_none. split; [done|]. intros d n. unfold table_in. cbn [w_dbs].
  destruct (decide ("default" = d)) as [<-|]; [by rewrite lookup_singleton|by rewrite lookup_singleton_ne].
Qed.
Print Assumptions c82_restart_forgets_refuted.

Theorem c82_restart_refuted : exists ops i,
  (run ops (boot None)).1 = map (fun _ => true) ops /\ get_table (run ops (boot None)).2 "t" = Some i /\
  get_table (lives [ops] (boot None)) "t" = None.
Proof.
  exists [OTable "t" [c "x"] true true], (TInfo "t" 5 [c "x"] 4 4). split; [rewrite boot_none; vm_compute; reflexivity|].
  split; [rewrite boot_none; vm_compute; reflexivity|]. apply (c82_restart_forgets_refuted [[OTable "t" [c "x"] true true]]).
Qed.
Print Assumptions c82_restart_refuted.

(** The pages of the old tables are given to new ones: the first table created after any start
    gets the same page, whatever there was before. *)
Theorem c82_pages_reused_refuted : forall l n sc i stored,
  get_table (run [OTable n sc true stored] (lives l (boot None))).2 n = Some i -> t_first i = 4.
Proof.
  intros l n sc i stored. rewrite lives_none by (auto; reflexivity). rewrite boot_none.
  unfold get_table, table_in. cbn [run step w_dbs w_cur]. rewrite lookup_singleton. cbn [new_heap_page w_page].
  destruct (db_create_table n sc 4 new_db) as [[j d2]|] eqn:E; cbn [snd w_dbs w_cur].
  - rewrite lookup_insert. rewrite (create_table_lookup _ _ _ _ _ _ n dbok_new E). rewrite decide_True by done. intros [= <-].
    destruct (create_table_spec _ _ _ _ _ _ dbok_new E) as (_ & _ & -> & _). reflexivity.
  - rewrite lookup_singleton. discriminate.
Qed.
Print Assumptions c82_pages_reused_refuted.

(** C82, partial: in a catalog with the default database only, whose system rows were all stored,
    rebuilding from the system table keeps every table under its name with its OID, definition
    and first page, and shows no other; and after a start that follows such a rebuild (and no
    other statement) the tables are there, as they were.  The full claim needs no rebuild before the end, and
    covers all databases and the rows. *)
Theorem c82_rebuild_partial : forall ops n,
  forallb one_database ops = true -> forallb all_stored ops = true ->
  let w := (run ops (boot None)).2 in
  get_table (rebuild w) n = get_table w n /\ get_table (restart (rebuild w)) n = get_table w n.
Proof.
  intros ops n F G w. pose proof (recorded_run ops _ _ wrep_boot F G recorded_boot) as Rc.
  pose proof (run_snap ops (boot None)) as Sn. subst w. destruct (run ops (boot None)) as [bs w] eqn:E. cbn [snd] in *.
  destruct (run_ok _ _ _ _ _ wrep_boot E) as (s & _ & H).
  assert (w_snap w = None) by (rewrite Sn; by rewrite boot_none).
  split; [by eapply rebuild_keeps|by eapply restart_rebuilt].
Qed.
Print Assumptions c82_rebuild_partial.

(** Rebuilding with a second database puts its tables into the current one, and a name can then
    stand for a table of the other database. *)
Theorem c82_rebuild_databases_refuted : exists ops i j,
  (run ops (boot None)).1 = map (fun _ => true) ops /\
  get_table (run ops (boot None)).2 "t" = Some i /\ get_table (run ops (boot None)).2 "u" = None /\
  get_table (rebuild (run ops (boot None)).2) "t" = Some j /\ t_name j = "u" /\ t_schema j <> t_schema i.
Proof.
  exists [OTable "t" [c "x"] true true; ODatabase "b"; OUse "b"; OTable "u" [c "y"] true true; OUse "default"].
  exists (TInfo "t" 5 [c "x"] 4 4), (TInfo "u" 5 [c "y"] 5 5). rewrite boot_none.
  repeat split; try (vm_compute; reflexivity). discriminate.
Qed.
Print Assumptions c82_rebuild_databases_refuted.

(** Even when the tables are found again, the next table is given the first page of one of them. *)
Theorem c82_rebuilt_pages_refuted : exists ops i j,
  let w := restart (rebuild (run ops (boot None)).2) in
  get_table w "t" = Some i /\
  (run [OTable "u" [c "y"] true true] w).1 = [true] /\
  get_table (run [OTable "u" [c "y"] true true] w).2 "u" = Some j /\ t_first i = t_first j /\ t_first i <> no_page.
Proof.
  exists [OTable "t" [c "x"] true true], (TInfo "t" 5 [c "x"] 4 4), (TInfo "u" 6 [c "y"] 4 4). rewrite boot_none.
  repeat split; try (vm_compute; reflexivity). discriminate.
Qed.
Print Assumptions c82_rebuilt_pages_refuted.

Lemma pair_snd {A B} (p : A * B) a : p.1 = a -> p = (a, p.2).
Proof. by intros <-; destruct p. Qed.

(** The last page of a rebuilt table is the one recorded when the table was created.  If the table
    has grown since, an insert cuts off its later pages: a row that was there is not found by a
    scan any more. *)
Theorem c82_rebuilt_rows_refuted : exists h h2 r,
  h_first h = 5 /\ length (TheapModel.scan 10 h) = 2%nat /\ h_last h = 6 /\
  insert_values (TMeta 1 None false None) (repeat 9 2100) (Some 7) (reopen 5 5 h) = (Some r, h2) /\
  (forall a, In a (TheapModel.scan 10 h) -> In (snd a) (map snd (TheapModel.scan 10 (reopen 5 5 h)))) /\
  exists a, In a (TheapModel.scan 10 h) /\ fst a = (6, 0%nat) /\ ~ In (fst a) (map fst (TheapModel.scan 10 h2)).
Proof.
  set (m := TMeta 1 None false None).
  set (h := (hrun [HValues m (repeat 1 2100) None; HValues m (repeat 2 2100) (Some 6)] (new_heap (Some 5))).2).
  exists h, (insert_values m (repeat 9 2100) (Some 7) (reopen 5 5 h)).2, (7, 0%nat).
  split; [vm_compute; reflexivity|]. split; [vm_compute; reflexivity|]. split; [vm_compute; reflexivity|].
  split; [apply pair_snd; vm_compute; reflexivity|].
  assert (Es : TheapModel.scan 10 h = [((5, 0%nat), ((5, 0%nat), (m, repeat 1 2100))); ((6, 0%nat), ((6, 0%nat), (m, repeat 2 2100)))]) by (vm_compute; reflexivity).
  assert (Er : TheapModel.scan 10 (reopen 5 5 h) = TheapModel.scan 10 h) by (vm_compute; reflexivity).
  assert (E2 : map fst (TheapModel.scan 10 (insert_values m (repeat 9 2100) (Some 7) (reopen 5 5 h)).2) = [(5, 0%nat); (7, 0%nat)]) by (vm_compute; reflexivity).
  split; [intros a Ha; rewrite Er; by apply in_map|]. rewrite E2, Es. eexists. split; [right; left; reflexivity|].
  split; [reflexivity|]. cbn [fst]. intros [E|[E|[]]]; discriminate.
Qed.
Print Assumptions c82_rebuilt_rows_refuted.

Example c82_ex :
  let w := (run [OTable "t" [c "x"] true true; OTable "u" [c "y"] true true; OIndex "i" "u" [0%nat] false true] (boot None)).2 in
  get_table (restart (rebuild w)) "u" = Some (TInfo "u" 6 [c "y"] 5 5).
Proof. rewrite boot_none. vm_compute. reflexivity. Qed.

(** ** C83: creating an index on a table with rows *)

Section c83.
  Context (keys : list N -> list val).

  Lemma insert_all_inserts es : forall ix, insert_all es ix = option_map snd (BtreeSpec.inserts 4 es ix).
  Proof.
    induction es as [|[k r] es IH]; intros ix; [done|]. cbn [insert_all BtreeSpec.inserts].
    destruct (BtreeModel.insert 4 ix k r) as [[b ix2]|]; [|done]. rewrite IH. destruct (BtreeSpec.inserts 4 es ix2) as [[bs ix3]|]; done.
  Qed.

  Definition row_entries (t : table) : list entry :=
    omap (fun e => match keys e.2.2 with [k] => Some (k, (e.1.1, N.of_nat e.1.2)) | _ => None end) t.

  Lemma scan_entries (l : list (TheapModel.rid * (TheapModel.rid * (tmeta * list N)))) (t : table) : map snd l = t -> map fst l = map fst t -> entries_of keys l = row_entries t.
  Proof.
    revert t. induction l as [|[r [r2 x]] l IH]; intros [|e t]; cbn [map]; try discriminate; [done|].
    intros [= <- E1] [= -> E2]. unfold entries_of, row_entries in *. cbn [omap list_omap fst snd]. rewrite (IH t) by done. done.
  Qed.

  Lemma in_row_entries t k (r : TheapModel.rid) : In (k, (r.1, N.of_nat r.2)) (row_entries t) <-> exists x, In (r, x) t /\ keys x.2 = [k].
  Proof.
    unfold row_entries. rewrite <- elem_of_list_In, elem_of_list_omap. split.
    - intros ([r2 x] & Hx & E). cbn in E. destruct (keys x.2) as [|k2 [|]] eqn:Ek; try discriminate. injection E as -> E1 E2.
      exists x. split; [|done]. apply elem_of_list_In. replace r with r2; [done|]. destruct r, r2. cbn in *. f_equal; [done|lia].
    - intros (x & Hx & Ek). exists (r, x). split; [by apply elem_of_list_In|]. cbn. by rewrite Ek.
  Qed.

  Lemma nodup_row_entries t : NoDup (map fst t) -> NoDup (row_entries t).
  Proof.
    induction t as [|[r x] t IH]; [constructor|]. cbn [map]. intros [Hn Hd]%NoDup_cons. unfold row_entries. cbn [omap list_omap fst snd].
    destruct (keys x.2) as [|k [|]]; [by apply IH| |by apply IH]. apply NoDup_cons. split; [|by apply IH].
    intros Hi. apply elem_of_list_In, (in_row_entries t k r) in Hi as (y & Hy & _). apply Hn, elem_of_list_In.
    apply (in_map fst) in Hy. exact Hy.
  Qed.

  Lemma tget_in (t : table) r x : NoDup (map fst t) -> tget t r = Some x <-> In (r, x) t.
  Proof.
    induction t as [|[r2 y] t IH]; cbn [tget map]; [cbn; split; [discriminate|intros []]|].
    intros [Hn Hd]%NoDup_cons. destruct (decide (r2 = r)) as [->|Hr].
    - split; [intros [= ->]; by left|]. intros [E|Hi]; [by injection E as ->|]. exfalso. apply Hn, elem_of_list_In. apply (in_map fst) in Hi. exact Hi.
    - rewrite IH by done. cbn. split; [by right|]. intros [E|]; [injection E as E1 _; congruence|done].
  Qed.
End c83.

(** C83, partial: if no row of the table is deleted, and each has, at the single key column, a
    value of the type [T], then after CREATE INDEX the index holds one entry for each row: its
    value with its RID; a full scan of the index returns these in order, and a range scan those of
    the range.  The full claim is also for tables with deleted rows, and for several columns.
    (The condition on the history is the one of C33.) *)
Theorem c83_index_partial : forall keys T a ops rs h,
  fresh_allocs a ops -> Forall hsmall ops -> hrun ops (new_heap a) = (rs, h) -> horderly (fun _ => False) ops rs [] ->
  let rows := table_after ops rs [] in
  (forall r x, tget rows r = Some x -> tm_del x.1 = false) ->
  (forall r x, tget rows r = Some x -> exists k, keys x.2 = [k] /\ of_type T k) ->
  exists n, forall fuel, (n <= fuel)%nat ->
  exists ix F, populate keys fuel h = Some ix /\ scan_full ix = Some F /\ NoDup F /\ StronglySorted entry_le F /\
    (forall k r, In (k, (r.1, N.of_nat r.2)) F <-> exists x, tget rows r = Some x /\ keys x.2 = [k]) /\
    (forall lo hi incl, of_type T lo -> of_type T hi ->
       scan_range ix lo hi incl = Some (List.filter (in_range_b lo hi incl) F)).
Proof.
  intros keys T a ops rs h Hfa Hs R Ho rows Hd Hk.
  destruct (c33_heap_partial a ops rs h Hfa Hs R Ho) as (Hn & _ & n1 & H1). fold rows in Hn, H1.
  destruct (c33_reported_rid_partial a ops rs h Hfa Hs R Ho Hd) as (n2 & H2). fold rows in H2.
  exists (n1 + n2)%nat. intros fuel Hf. destruct (H1 fuel ltac:(lia)) as (S1 & _). specialize (H2 fuel ltac:(lia)).
  rewrite (live_all rows Hn Hd) in S1.
  assert (E : entries_of keys (TheapModel.scan fuel h) = row_entries keys rows) by (apply scan_entries; [exact S1|exact H2]).
  assert (Ht : Forall (of_type T) (map fst (row_entries keys rows))).
  { apply List.Forall_forall. intros k Hk2. apply in_map_iff in Hk2 as ([k2 e] & <- & Hi). cbn [fst].
    unfold row_entries in Hi. apply elem_of_list_In, elem_of_list_omap in Hi as ([r x] & Hx & Ee). cbn in Ee.
    apply elem_of_list_In, (tget_in rows r x Hn) in Hx. destruct (Hk r x Hx) as (k3 & Ek & Hk3). rewrite Ek in Ee. injection Ee as <- _. exact Hk3. }
  destruct (c38_scan_partial 4 T (row_entries keys rows)) as (bs & ix & F & I1 & _ & I2 & _ & I3 & _ & I4 & I5); [|exact Ht|].
  { split; [lia|by exists 2%nat]. }
  exists ix, F. unfold populate. rewrite E, insert_all_inserts, I1. split; [done|]. split; [done|].
  specialize (I4 (nodup_row_entries keys rows Hn)). split; [by rewrite I4; apply nodup_row_entries|]. split; [done|]. split; [|done].
  intros k r. split.
  - intros Hi. apply (Permutation_in _ I4), in_row_entries in Hi as (x & Hx & Ek). exists x. split; [by apply tget_in|done].
  - intros (x & Hx & Ek). apply (Permutation_in _ (Permutation_sym I4)), in_row_entries. exists x. split; [by apply tget_in|done].
Qed.
Print Assumptions c83_index_partial.

(** An index on several columns stays empty, whatever rows the table has. *)
Theorem c83_composite_refuted : forall keys fuel h, (forall bs, length (keys bs) <> 1%nat) -> populate keys fuel h = Some new_index.
Proof.
  intros keys fuel h Hk. unfold populate. replace (entries_of keys (TheapModel.scan fuel h)) with (@nil entry); [done|].
  symmetry. unfold entries_of. induction (TheapModel.scan fuel h) as [|x l IH]; [done|]. cbn [omap list_omap].
  specialize (Hk x.2.2.2). destruct (keys x.2.2.2) as [|k [|]]; [exact IH|by cbn in Hk|exact IH].
Qed.
Print Assumptions c83_composite_refuted.

Local Definition key1 (bs : list N) : list val := match bs with b :: _ => [VInt Integer (Z.of_N b)] | [] => [] end.

(** After a row is deleted, the row behind it is put in the index with the RID of the deleted
    row: looking the row up through the index finds nothing. *)
Theorem c83_deleted_refuted : exists ops rs h ix,
  fresh_allocs (Some 5) ops /\ Forall hsmall ops /\ hrun ops (new_heap (Some 5)) = (rs, h) /\
  horderly (fun _ => False) ops rs [] /\
  live (table_after ops rs []) = [((5, 1%nat), (TMeta 1 None false None, [8]))] /\
  populate key1 10 h = Some ix /\ scan_full ix = Some [(VInt Integer 8, (5, 0))] /\ heap_get (5, 0%nat) h = None.
Proof.
  set (m := TMeta 1 None false None).
  set (ops := [HValues m [7] None; HValues m [8] None; HMeta (5, 0%nat) (TMeta 1 None true None)]).
  exists ops, (hrun ops (new_heap (Some 5))).1, (hrun ops (new_heap (Some 5))).2. eexists.
  assert (Ers : (hrun ops (new_heap (Some 5))).1 = [Some (5, 0%nat); Some (5, 1%nat); Some (5, 0%nat)]) by (vm_compute; reflexivity).
  split; [split; cbn; [repeat constructor; set_solver|rewrite elem_of_list_singleton; discriminate]|].
  split; [repeat constructor|]. split; [apply surjective_pairing|]. split; [|split; [|split; [|split]]].
  - rewrite Ers. cbn. repeat split; intros pg k E Hi Hg; tauto.
  - rewrite Ers. vm_compute. reflexivity.
  - vm_compute. reflexivity.
  - vm_compute. reflexivity.
  - vm_compute. reflexivity.
Qed.
Print Assumptions c83_deleted_refuted.

Example c83_ex :
  let m := TMeta 1 None false None in
  let h := (hrun [HValues m [7] None; HValues m [3] None; HValues m [5] None] (new_heap (Some 5))).2 in
  option_map scan_full (populate key1 10 h) = Some (Some [(VInt Integer 3, (5, 1)); (VInt Integer 5, (5, 2)); (VInt Integer 7, (5, 0))]).
Proof. vm_compute. reflexivity. Qed.
