(** * What an INSERT stores

    C51 (rows complete), C68 (the columns a row goes to), C69 (foreign keys), C70 (a failed
    statement changes nothing) and C71 (keys and unique columns).  The statements use InsSpec.v and
    the operations of InsModel.v; [cast] is the engine's conversion of values, about which
    [cast_ok] says only that a value of the right type is kept, that NULL stays NULL and that the
    result has the type asked for. *)
From Coq Require Import ZArith String Ascii Lia.
From stdpp Require Import base list strings gmap.
From Verif Require Import InsSpec InsModel InsProofs.
Local Open Scope Z_scope.

(** Some tables for the examples. *)
Definition plain (n : string) (ty : ITy) : ICol := mkC n ty false false false None None None.
Definition ex_cols : list ICol :=
  [ mkC "id" TInt true true false None None None;
    mkC "name" TText false true false None None None;
    mkC "qty" TInt false false false None (Some (mkV TText (PText "7"))) None;
    mkC "at" TTime false false false None (Some (mkV TText (PText "now()"))) None ].
Definition vint (z : Z) : IVal := mkV TInt (PNum z).
Definition vtext (s : string) : IVal := mkV TText (PText s).
Definition vnull (ty : ITy) : IVal := mkV ty PNull.
Definition always (_ : list IVal) : bool := true.
Definition ex_w : World := irun cast_ints [OCreate "t" ex_cols] w_init.

(** ** C51 *)

(** Inserting values for the first columns, through the table's API: the row has the table's
    arity, the values given are stored, each column left out gets its default, and each key left
    out or NULL gets a generated one.  The statement fails only for a stated reason, and a failure
    leaves all the tables alone. *)
Theorem insert_values_partial : forall fits now t vals w b w' cols rows,
  the_tabs w t = Some (cols, rows) ->
  txn_insert_values fits now t vals w = (b, w') ->
  if b then
    exists row keys, the_tabs w' t = Some (cols, rows ++ [row])
      /\ stored_row now cols vals row keys
      /\ w_gen w' = w_gen w ++ keys
      /\ (forall t', t' <> t -> the_tabs w' t' = the_tabs w t')
      /\ fits row = true
  else
    (forall t', the_tabs w' t' = the_tabs w t')
    /\ ((length cols < length vals)%nat
        \/ (exists i c, cols !! i = Some c /\ vals !! i = None /\ c_pk c = false
              /\ c_default c = None /\ c_notnull c = true)
        \/ (exists row keys, stored_row now cols vals row keys /\ fits row = false)).
Proof.
  intros fits now t vals w b w' cols rows HT E. unfold the_tabs in HT.
  destruct (w_tabs w !! t) as [tb|] eqn:T; [|done]. cbn in HT.
  assert (cols = t_cols tb) as -> by congruence. assert (rows = t_rows tb) as -> by congruence.
  destruct b.
  - destruct (txn_insert_true _ _ _ _ _ _ E) as (tb0 & row & nx & ks & T0 & X & F & ->).
    assert (tb0 = tb) as -> by congruence. exists row, ks.
    unfold the_tabs. rewrite (add_row_tabs t row (with_keys nx ks w) tb T). split.
    { rewrite lookup_insert. done. }
    split; [by eapply expand_spec|]. split.
    { unfold add_row. cbn. rewrite T. done. }
    split; [|done]. intros t' N. rewrite lookup_insert_ne by done. done.
  - split.
    { intros t'. unfold the_tabs. by rewrite (txn_insert_false _ _ _ _ _ _ E). }
    unfold txn_insert_values in E. rewrite T in E.
    destruct (expand now (w_next w) (t_cols tb) vals) as [[r nx] ks] eqn:X.
    destruct r as [row|].
    + right; right. exists row, ks. split; [by eapply expand_spec|].
      unfold heap_insert_values in E. cbn [with_keys w_tabs w_next] in E. rewrite T in E.
      rewrite (expand_again _ _ _ _ _ _ _ X) in E. destruct (fits row); congruence.
    + unfold expand in X. destruct (Nat.ltb_spec (length (t_cols tb)) (length vals)); [by left|].
      right; left. apply (expand_cols_fails now _ (w_next w)). by rewrite X.
Qed.
Print Assumptions insert_values_partial.

(** The same of a bulk insertion: the rows before the first failure are stored. *)
Theorem insert_bulk_partial : forall fits now t batch w b w' cols rows,
  the_tabs w t = Some (cols, rows) ->
  bulk_insert fits now t batch w = (b, w') ->
  exists news, the_tabs w' t = Some (cols, rows ++ news)
    /\ Forall2 (fun vals row => exists keys, stored_row now cols vals row keys
                  /\ forall k, k ∈ keys -> k ∈ w_gen w')
         (take (length news) batch) news
    /\ (if b then length news = length batch else (length news < length batch)%nat)
    /\ forall t', t' <> t -> the_tabs w' t' = the_tabs w t'.
Proof.
  intros fits now t batch. induction batch as [|vals batch IH]; intros w b w' cols rows HT E; cbn [bulk_insert] in E.
  - assert (b = true) as -> by congruence. assert (w' = w) as -> by congruence.
    exists []. rewrite app_nil_r. split; [done|]. split; [constructor|]. done.
  - pose proof HT as HT0. unfold the_tabs in HT.
    destruct (w_tabs w !! t) as [tb|] eqn:T; [|done]. cbn in HT.
    assert (cols = t_cols tb) as -> by congruence. assert (rows = t_rows tb) as -> by congruence.
    destruct (expand now (w_next w) (t_cols tb) vals) as [[r nx] ks] eqn:X.
    assert (STOP : exists news, the_tabs (with_keys nx ks w) t = Some (t_cols tb, t_rows tb ++ news)
      /\ Forall2 (fun vals row => exists keys, stored_row now (t_cols tb) vals row keys
                  /\ forall k, k ∈ keys -> k ∈ w_gen (with_keys nx ks w))
           (take (length news) (vals :: batch)) news
      /\ (length news < length (vals :: batch))%nat
      /\ forall t', t' <> t -> the_tabs (with_keys nx ks w) t' = the_tabs w t').
    { exists []. rewrite app_nil_r. split; [done|]. split; [constructor|]. split; [cbn; lia|done]. }
    destruct r as [row|].
    2:{ assert (b = false) as -> by congruence. assert (w' = with_keys nx ks w) as -> by congruence. done. }
    destruct (fits row) eqn:F.
    2:{ assert (b = false) as -> by congruence. assert (w' = with_keys nx ks w) as -> by congruence. done. }
    assert (T1 : w_tabs (add_row t row (with_keys nx ks w))
                 = <[t := mkT (t_cols tb) (t_rows tb ++ [row])]> (w_tabs w)).
    { by rewrite (add_row_tabs t row (with_keys nx ks w) tb T). }
    assert (HT1 : the_tabs (add_row t row (with_keys nx ks w)) t = Some (t_cols tb, t_rows tb ++ [row])).
    { unfold the_tabs. rewrite T1, lookup_insert. done. }
    destruct (IH _ _ _ _ _ HT1 E) as (news & A & B & C & D).
    assert (G : forall k, k ∈ ks -> k ∈ w_gen w').
    { assert (GG : forall batch w b w', bulk_insert fits now t batch w = (b, w') ->
        forall k, k ∈ w_gen w -> k ∈ w_gen w').
      { clear. intros batch. induction batch as [|v0 batch IH]; intros w b w' E k Hk; cbn [bulk_insert] in E;
          [congruence|].
        destruct (w_tabs w !! t) as [tb|]; [|congruence].
        destruct (expand now (w_next w) (t_cols tb) v0) as [[r nx] ks].
        assert (K1 : k ∈ w_gen (with_keys nx ks w)) by (cbn; apply elem_of_app; by left).
        destruct r as [row|]; [|assert (w' = with_keys nx ks w) as -> by congruence; done].
        destruct (fits row); [|assert (w' = with_keys nx ks w) as -> by congruence; done].
        eapply IH; [exact E|]. unfold add_row. by destruct (w_tabs (with_keys nx ks w) !! t). }
      intros k Hk. eapply GG; [exact E|]. unfold add_row. cbn [with_keys w_tabs]. rewrite T. cbn.
      apply elem_of_app. by right. }
    exists (row :: news). split; [rewrite A, <- app_assoc; done|]. split.
    { cbn [length take]. constructor; [|done]. exists ks. split; [by eapply expand_spec|done]. }
    split; [destruct b; cbn [length]; lia|]. intros t' N. rewrite D by done.
    unfold the_tabs. rewrite T1, lookup_insert_ne by done. done.
Qed.
Print Assumptions insert_bulk_partial.

(** In every history each row of each table has as many values as the table has columns. *)
Theorem rows_have_arity : forall cast os t cols rows r,
  the_tabs (irun cast os w_init) t = Some (cols, rows) -> r ∈ rows -> length r = length cols.
Proof.
  intros cast os t cols rows r HT Hr.
  pose proof (irun_inv cast winv (istep_winv cast) os w_init winv_init) as W.
  unfold the_tabs in HT. destruct (w_tabs _ !! t) as [tb|] eqn:T; [|done]. cbn in HT.
  assert (cols = t_cols tb) as -> by congruence. assert (rows = t_rows tb) as -> by congruence.
  by eapply W.
Qed.
Print Assumptions rows_have_arity.

(** Generated keys are fresh: in a history that generates at most 2^32 of them, no key is given
    out twice, in whatever tables. *)
Theorem generated_keys_fresh : forall cast os,
  Z.of_nat (length (w_gen (irun cast os w_init))) <= 4294967296 ->
  NoDup (w_gen (irun cast os w_init)).
Proof.
  intros cast os L. pose proof (irun_inv cast kinv (istep_kinv cast) os w_init kinv_init) as [K _].
  rewrite K. by apply gens_from_NoDup.
Qed.
Print Assumptions generated_keys_fresh.

Example insert_values_ex :
  let '(b, w') := txn_insert_values always 99 "t" [vnull TInt; vtext "a"] ex_w in
  b = true /\ the_tabs w' "t"
    = Some (ex_cols, [[vint 1; vtext "a"; vtext "7"; mkV TTime (PNum 99)]])
  /\ w_gen w' = [1].
Proof. vm_compute. done. Qed.

Example insert_values_fails_ex :
  fst (txn_insert_values always 99 "t" [vint 4] ex_w) = false
  /\ fst (bulk_insert always 99 "t" [[vint 4; vtext "x"]; [vint 5]] ex_w) = false
  /\ the_tabs (snd (bulk_insert always 99 "t" [[vint 4; vtext "x"]; [vint 5]] ex_w)) "t"
     = Some (ex_cols, [[vint 4; vtext "x"; vtext "7"; mkV TTime (PNum 99)]]).
Proof. vm_compute. done. Qed.

(** A NULL that is given for a NOT NULL column is stored: when there is a value for each column,
    the NOT NULL declarations make no difference. *)
Theorem insert_null_refuted : forall fits now t vals w cols rows,
  the_tabs w t = Some (cols, rows) ->
  length vals = length cols ->
  (forall i c v, cols !! i = Some c -> vals !! i = Some v -> is_null v = true -> c_pk c = false) ->
  fits vals = true ->
  exists w', txn_insert_values fits now t vals w = (true, w')
    /\ the_tabs w' t = Some (cols, rows ++ [vals]).
Proof.
  intros fits now t vals w cols rows HT L H F. unfold the_tabs in HT.
  destruct (w_tabs w !! t) as [tb|] eqn:T; [|done]. cbn in HT.
  assert (cols = t_cols tb) as -> by congruence. assert (rows = t_rows tb) as -> by congruence.
  assert (X : forall nx, expand now nx (t_cols tb) vals = (Some vals, nx, [])).
  { intros nx. unfold expand. rewrite L, Nat.ltb_irrefl. apply expand_cols_full; [done|].
    intros i c v Hc Hv. destruct (is_null v) eqn:N; [|done]. by rewrite (H i c v). }
  unfold txn_insert_values. rewrite T, X. unfold heap_insert_values. cbn [with_keys w_tabs w_next].
  rewrite T, X, F. eexists. split; [done|].
  unfold the_tabs. erewrite add_row_tabs by (cbn; exact T). by rewrite lookup_insert.
Qed.
Print Assumptions insert_null_refuted.

Example insert_null_refuted_ex :
  exists row w', txn_insert_values always 99 "t" [vint 8; vnull TText; vnull TInt; vnull TTime] ex_w
     = (true, w')
  /\ the_tabs w' "t" = Some (ex_cols, [row]) /\ ~ not_nulls_hold ex_cols row.
Proof.
  exists [vint 8; vnull TText; vnull TInt; vnull TTime]. eexists. split; [vm_compute; reflexivity|].
  split; [done|]. intros H.
  assert (X : is_null (vnull TText) = false) by (apply (H 1%nat _ _ eq_refl eq_refl eq_refl)). done.
Qed.

(** A generated key may be one that a row already has: the counter does not look at the rows. *)
Theorem generated_key_clash_refuted :
  let os := [OCreate "t" ex_cols;
             OValues always 0 "t" [vint 1; vtext "given"];
             OValues always 0 "t" [vnull TInt; vtext "generated"]] in
  exists a b, the_tabs (irun cast_ints os w_init) "t" = Some (ex_cols, [a; b])
    /\ a !! 0%nat = b !! 0%nat /\ ~ column_unique 0 [a; b].
Proof.
  eexists _, _. split; [vm_compute; reflexivity|]. split; [done|].
  intros H. apply (H 0%nat 1%nat _ _ _ _ ltac:(done) eq_refl eq_refl eq_refl eq_refl). by right.
Qed.
Print Assumptions generated_key_clash_refuted.

(** Every generated key is an INTEGER, whatever the type of its column. *)
Theorem generated_key_type_refuted : forall fits now t vals w w' cols rows,
  the_tabs w t = Some (cols, rows) ->
  txn_insert_values fits now t vals w = (true, w') ->
  exists row, the_tabs w' t = Some (cols, rows ++ [row])
    /\ forall i c v, cols !! i = Some c -> row !! i = Some v -> c_pk c = true ->
         match vals !! i with Some g => is_null g | None => true end = true -> v_ty v = TInt.
Proof.
  intros fits now t vals w w' cols rows HT E.
  destruct (insert_values_partial fits now t vals w true w' cols rows HT E) as (row & keys & A & [_ S1] & _).
  exists row. split; [done|]. intros i c v Hc Hv Hp Hg. specialize (S1 i c v Hc Hv).
  rewrite Hp in S1. destruct (vals !! i) as [g|].
  - rewrite Hg in S1. cbn in S1. by destruct S1 as (k & -> & _).
  - by destruct S1 as (k & -> & _).
Qed.
Print Assumptions generated_key_type_refuted.

Example generated_key_type_refuted_ex :
  let cols := [mkC "id" TBig true true false None None None] in
  exists w', txn_insert_values always 0 "u" [] (irun cast_ints [OCreate "u" cols] w_init) = (true, w')
    /\ the_tabs w' "u" = Some (cols, [[vint 1]]) /\ v_ty (vint 1) <> TBig.
Proof. eexists. split; [vm_compute; reflexivity|]. done. Qed.

(** ** C68: INSERT with VALUES *)

(** The columns that a statement names. *)
Definition named (names : list string) (cols : list ICol) : list string :=
  match names with [] => map c_name cols | _ => names end.

(** The value [v] of column [c], when [u] was meant for it: a NULL key is replaced by one of [keys]. *)
Definition kept (c : ICol) (keys : list Z) (u v : IVal) : Prop :=
  if is_null u && c_pk c then exists k, v = mkV TInt (PNum k) /\ k ∈ keys else v = u.

(** Each value of a VALUES row goes, converted to the column's type, to the column named at its
    place; a column that is not named gets NULL (or a key). *)
Lemma insert_values_sql : forall cast fits now t names given w b w' cols rows,
  cast_ok cast ->
  the_tabs w t = Some (cols, rows) ->
  NoDup (map c_name cols) -> NoDup names ->
  insert_sql cast fits now t names (SVals given) w = (b, w') ->
  exists news, the_tabs w' t = Some (cols, rows ++ news)
    /\ (if b then length news = length given
        else (length news < length given)%nat \/ (news = [] /\ w' = w))
    /\ (forall t', t' <> t -> the_tabs w' t' = the_tabs w t')
    /\ forall k g row, given !! k = Some g -> news !! k = Some row ->
         length row = length cols
         /\ forall i c v, cols !! i = Some c -> row !! i = Some v ->
              (forall j x, named names cols !! j = Some (c_name c) -> g !! j = Some x ->
                 exists u, cast x (c_ty c) = Some u /\ kept c (w_gen w') u v)
              /\ (c_name c ∉ named names cols -> kept c (w_gen w') (mkV (c_ty c) PNull) v).
Proof.
  intros cast fits now t names given w b w' cols rows OK HT ND NN E.
  assert (FAIL : (b, w') = (false, w) ->
    exists news, the_tabs w' t = Some (cols, rows ++ news)
    /\ (if b then length news = length given
        else (length news < length given)%nat \/ (news = [] /\ w' = w))
    /\ (forall t', t' <> t -> the_tabs w' t' = the_tabs w t')
    /\ forall k g row, given !! k = Some g -> news !! k = Some row ->
         length row = length cols
         /\ forall i c v, cols !! i = Some c -> row !! i = Some v ->
              (forall j x, named names cols !! j = Some (c_name c) -> g !! j = Some x ->
                 exists u, cast x (c_ty c) = Some u /\ kept c (w_gen w') u v)
              /\ (c_name c ∉ named names cols -> kept c (w_gen w') (mkV (c_ty c) PNull) v)).
  { intros EF. assert (b = false) as -> by congruence. assert (w' = w) as -> by congruence.
    exists []. rewrite app_nil_r. split; [done|]. split; [by right|]. split; [done|].
    intros k g row _ H. by rewrite lookup_nil in H. }
  unfold the_tabs in HT. unfold insert_sql in E.
  destruct (w_tabs w !! t) as [tb|] eqn:T; [|done]. cbn in HT.
  assert (cols = t_cols tb) as -> by congruence. assert (rows = t_rows tb) as -> by congruence.
  destruct (match names with [] => Some (t_cols tb) | _ :: _ => listed names (t_cols tb) end) as [vs|] eqn:LS.
  2:{ by apply FAIL. }
  destruct (forallb _ given) eqn:LG. 2:{ by apply FAIL. }
  destruct (eval_rows cast vs given) as [ev|] eqn:EV. 2:{ by apply FAIL. }
  clear FAIL.
  assert (VS : map c_name vs = named names (t_cols tb) /\ forall c, c ∈ vs -> c ∈ t_cols tb).
  { destruct names as [|n ns].
    - assert (vs = t_cols tb) as -> by congruence. done.
    - destruct (listed_spec _ _ _ LS). done. }
  destruct VS as [VN VI].
  assert (NDV : NoDup (map c_name vs)).
  { rewrite VN. unfold named. by destruct names. }
  apply eval_rows_spec in EV. pose proof (Forall2_length _ _ _ EV) as LE.
  destruct (insert_loop_spec cast fits now t vs ev w b w' tb T E) as (news & TN & FN & LN & GN).
  exists news. unfold the_tabs. rewrite TN. split; [by rewrite lookup_insert|].
  split; [destruct b; [lia|left; lia]|].
  split; [intros t' N; by rewrite lookup_insert_ne|].
  intros k g row Hk Hr.
  destruct (Forall2_lookup_l _ _ _ _ _ EV Hk) as (e & He & Ee).
  assert (Ht : take (length news) ev !! k = Some e).
  { rewrite lookup_take; [done|]. by apply lookup_lt_Some in Hr. }
  destruct (Forall2_lookup_l _ _ _ _ _ FN Ht) as (row' & Hr' & (ks & SR & KS) & _).
  assert (row' = row) as -> by congruence.
  destruct SR as [LR SR]. split; [done|].
  intros i c v Hc Hv. specialize (SR i c v Hc Hv).
  assert (LG1 : length g = length vs).
  { rewrite forallb_forall in LG. specialize (LG g).
    apply Nat.eqb_eq. apply LG. apply elem_of_list_In. by eapply elem_of_list_lookup_2. }
  destruct (eval_row_spec cast vs g e OK LG1 Ee) as [LE1 HE1].
  destruct (decide (vs = [])) as [->|NE].
  - (* no columns at all *)
    cbn in VN. assert (NM : named names (t_cols tb) = []) by done. rewrite NM. split.
    + intros j x H. by rewrite lookup_nil in H.
    + intros _. unfold kept. cbn [is_null v_pay andb].
      destruct names as [|n ns]; [|done]. cbn in NM.
      assert (t_cols tb = []) as EC by (by destruct (t_cols tb)). by rewrite EC in Hc.
  - rewrite (map_values_listed cast e vs (t_cols tb) i c NE VI Hc) in SR. split.
    + intros j x Hj Hx. rewrite <- VN in Hj.
      change (@map ICol string) with (@fmap list list_fmap ICol string) in Hj.
      rewrite list_lookup_fmap in Hj. destruct (vs !! j) as [d|] eqn:D; [|done].
      cbn in Hj. assert (HN : c_name d = c_name c) by congruence.
      assert (d = c) as ->.
      { eapply (NoDup_name_eq (t_cols tb)); try done.
        - apply VI. by eapply elem_of_list_lookup_2.
        - by eapply elem_of_list_lookup_2. }
      destruct (HE1 j c x D Hx) as (u & Hu & Cu). exists u. split; [done|].
      unfold value_by_name in SR. rewrite (col_index_names _ vs j c NDV D eq_refl), Hu in SR.
      assert (CU : cast_or_null cast u (c_ty c) = u).
      { unfold cast_or_null. destruct OK as (O1 & O2 & _). rewrite <- (O2 _ _ _ Cu), O1. done. }
      rewrite CU in SR. unfold kept. destruct (is_null u && c_pk c); [|done].
      destruct SR as (q & ? & ?). exists q. auto.
    + intros NI. unfold value_by_name in SR.
      assert (CN : col_index (c_name c) vs = None) by (apply col_index_none; by rewrite VN).
      rewrite CN in SR. unfold kept. destruct (is_null (mkV (c_ty c) PNull) && c_pk c); [|done].
      destruct SR as (q & ? & ?). exists q. auto.
Qed.

Theorem insert_columns_partial : forall cast fits now t names given w w' cols rows,
  cast_ok cast ->
  the_tabs w t = Some (cols, rows) ->
  NoDup (map c_name cols) -> NoDup names ->
  insert_sql cast fits now t names (SVals given) w = (true, w') ->
  exists news, the_tabs w' t = Some (cols, rows ++ news) /\ length news = length given
    /\ (forall t', t' <> t -> the_tabs w' t' = the_tabs w t')
    /\ forall k g row i c v j x, given !! k = Some g -> news !! k = Some row ->
         cols !! i = Some c -> row !! i = Some v ->
         named names cols !! j = Some (c_name c) -> g !! j = Some x ->
         exists u, cast x (c_ty c) = Some u /\ kept c (w_gen w') u v.
Proof.
  intros cast fits now t names given w w' cols rows OK HT ND NN E.
  destruct (insert_values_sql _ _ _ _ _ _ _ _ _ _ _ OK HT ND NN E) as (news & A & B & C & D).
  exists news. split; [done|]. split; [done|]. split; [done|].
  intros k g row i c v j x H1 H2 H3 H4 H5 H6. destruct (D k g row H1 H2) as [_ D2].
  destruct (D2 i c v H3 H4) as [D3 _]. by eapply D3.
Qed.
Print Assumptions insert_columns_partial.

Example insert_columns_ex :
  let '(b, w') := insert_sql cast_ints always 99 "t" ["qty"; "name"] (SVals [[mkV TSmall (PNum 5); vtext "a"]]) ex_w in
  b = true /\ the_tabs w' "t" = Some (ex_cols, [[vint 1; vtext "a"; vint 5; vnull TTime]]).
Proof. vm_compute. done. Qed.

(** The list of columns of INSERT ... SELECT makes no difference beyond its types: the rows go
    where the names of the SELECT's own columns, or their places, lead. *)
Theorem insert_select_ignores_list_refuted : forall cast fits now t names1 names2 sc srows w vs1 vs2 cols rows,
  the_tabs w t = Some (cols, rows) ->
  names1 <> [] -> names2 <> [] ->
  listed names1 cols = Some vs1 -> listed names2 cols = Some vs2 ->
  map c_ty vs1 = map c_ty vs2 ->
  insert_sql cast fits now t names1 (SSel sc srows) w = insert_sql cast fits now t names2 (SSel sc srows) w.
Proof.
  intros cast fits now t names1 names2 sc srows w vs1 vs2 cols rows HT N1 N2 L1 L2 TY.
  unfold the_tabs in HT. unfold insert_sql. destruct (w_tabs w !! t) as [tb|] eqn:T; [|done]. cbn in HT.
  assert (cols = t_cols tb) as -> by congruence.
  destruct names1 as [|a names1]; [done|]. destruct names2 as [|b names2]; [done|].
  rewrite L1, L2, TY. done.
Qed.
Print Assumptions insert_select_ignores_list_refuted.

Definition ab_cols : list ICol := [plain "a" TInt; plain "b" TInt].
Example insert_select_refuted_ex :
  (* INSERT INTO s (b) SELECT a FROM s puts the value in column a, and b is NULL *)
  let w := irun cast_ints [OCreate "s" ab_cols] w_init in
  let '(b, w') := insert_sql cast_ints always 0 "s" ["b"] (SSel [plain "a" TInt] [[vint 5]]) w in
  b = true /\ the_tabs w' "s" = Some (ab_cols, [[vint 5; vnull TInt]]).
Proof. vm_compute. done. Qed.

(** C51, continued: in SQL a column left out of the list never gets its default, and a NOT NULL
    column left out is stored as NULL. *)
Theorem insert_default_refuted : forall cast fits now t names given w w' cols rows,
  cast_ok cast ->
  the_tabs w t = Some (cols, rows) ->
  NoDup (map c_name cols) -> NoDup names -> names <> [] ->
  insert_sql cast fits now t names (SVals given) w = (true, w') ->
  exists news, the_tabs w' t = Some (cols, rows ++ news) /\ length news = length given
    /\ forall row i c v, row ∈ news -> cols !! i = Some c -> row !! i = Some v ->
         c_name c ∉ names -> c_pk c = false -> v = mkV (c_ty c) PNull.
Proof.
  intros cast fits now t names given w w' cols rows OK HT ND NN NE E.
  destruct (insert_values_sql _ _ _ _ _ _ _ _ _ _ _ OK HT ND NN E) as (news & A & B & C & D).
  exists news. split; [done|]. split; [done|].
  intros row i c v Hr Hc Hv NI Hp. apply elem_of_list_lookup in Hr. destruct Hr as [k Hk].
  destruct (lookup_lt_is_Some_2 given k) as [g Hg].
  { rewrite <- B. by eapply lookup_lt_Some. }
  destruct (D k g row Hg Hk) as [_ D2]. destruct (D2 i c v Hc Hv) as [_ D3].
  assert (NM : named names cols = names) by (by destruct names). rewrite NM in D3.
  specialize (D3 NI). unfold kept in D3. rewrite Hp, andb_false_r in D3. done.
Qed.
Print Assumptions insert_default_refuted.

Example insert_default_refuted_ex :
  let '(b, w') := insert_sql cast_ints always 99 "t" ["id"] (SVals [[vint 5]]) ex_w in
  b = true /\ the_tabs w' "t" = Some (ex_cols, [[vint 5; vnull TText; vnull TInt; vnull TTime]]).
Proof. vm_compute. done. Qed.

(** ** C69: foreign keys *)

(** A row that SQL inserts refers to rows that exist: each non-null foreign key value, other than
    that of a primary key column, occurs in the column it refers to. *)
Theorem insert_foreign_key_partial : forall cast fits now t names src w b w' cols rows,
  the_tabs w t = Some (cols, rows) ->
  insert_sql cast fits now t names src w = (b, w') ->
  exists news, the_tabs w' t = Some (cols, rows ++ news)
    /\ forall row i c v f, row ∈ news -> cols !! i = Some c -> row !! i = Some v ->
         c_fk c = Some f -> c_pk c = false -> is_null v = false -> refers (the_tabs w') f v.
Proof.
  intros cast fits now t names src w b w' cols rows HT E. pose proof HT as HT0. unfold the_tabs in HT.
  destruct (w_tabs w !! t) as [tb|] eqn:T; [|done]. cbn in HT.
  assert (cols = t_cols tb) as -> by congruence. assert (rows = t_rows tb) as -> by congruence.
  destruct (insert_sql_cases cast fits now t names src w) as [E1|(tb' & sc & ev & T' & E1)].
  - assert (w' = w) as -> by congruence. exists []. rewrite app_nil_r. split; [done|].
    intros row i c v f H. by apply elem_of_nil in H.
  - rewrite E1 in E.
    destruct (insert_loop_spec cast fits now t sc ev w b w' tb T E) as (news & TN & FN & LN & GN).
    exists news. split; [unfold the_tabs; rewrite TN, lookup_insert; done|].
    intros row i c v f Hr Hc Hv Hf Hp Hn. apply elem_of_list_lookup in Hr. destruct Hr as [k Hk].
    destruct (Forall2_lookup_r _ _ _ _ _ FN Hk) as (e & _ & _ & FG). by eapply FG.
Qed.
Print Assumptions insert_foreign_key_partial.

Definition parent_cols : list ICol := [mkC "id" TInt true true false None None None].
Definition child_cols : list ICol :=
  [mkC "p" TInt false false false None None (Some (mkFk "parent" "id"))].
Definition family : list IOp :=
  [OCreate "parent" parent_cols; OCreate "child" child_cols; OValues always 0 "parent" [vint 3]].
Definition fam_w : World := irun cast_ints family w_init.

Example insert_foreign_key_ex :
  fst (insert_sql cast_ints always 0 "child" [] (SVals [[vint 3]]) fam_w) = true
  /\ fst (insert_sql cast_ints always 0 "child" [] (SVals [[vint 4]]) fam_w) = false
  /\ refers (the_tabs fam_w) (mkFk "parent" "id") (vint 3).
Proof.
  split; [vm_compute; done|]. split; [vm_compute; done|].
  exists parent_cols, [[vint 3]], 0%nat, (mkC "id" TInt true true false None None None).
  split; [vm_compute; done|]. split; [done|]. split; [done|].
  exists [vint 3], (vint 3). split; [left|]. split; [done|]. by right.
Qed.

(** The reference is not kept: deleting the parent row, changing the child row and inserting
    through the API all leave a child whose parent does not exist. *)
Lemma no_parent w v k : the_tabs w "parent" = Some (parent_cols, k) ->
  (forall r u, r ∈ k -> r !! 0%nat = Some u -> ~ same_value u v) -> ~ refers (the_tabs w) (mkFk "parent" "id") v.
Proof.
  intros T H (cols & rows & i & c & T1 & Hc & Hn & r & u & Hr & Hu & Hs). cbn [fk_table] in T1.
  assert (cols = parent_cols) as -> by congruence. assert (rows = k) as -> by congruence.
  destruct i as [|i]; [|by destruct i]. by eapply H.
Qed.

Theorem foreign_key_dangling_refuted :
  forall o, o = ODelete always "parent"
         \/ o = OUpdate always always [(0%nat, fun _ => Some (vint 4))] "child"
         \/ o = OValues always 0 "child" [vint 4] ->
  exists w b w' rows r v, w = irun cast_ints (family ++ [OInsert always 0 "child" [] (SVals [[vint 3]])]) w_init
    /\ istep cast_ints o w = (b, w') /\ b = true
    /\ the_tabs w' "child" = Some (child_cols, rows) /\ r ∈ rows /\ r !! 0%nat = Some v
    /\ is_null v = false /\ ~ refers (the_tabs w') (mkFk "parent" "id") v.
Proof.
  intros o [-> | [-> | ->]].
  - eexists _, _, _, _, [vint 3], (vint 3). split; [reflexivity|]. split; [vm_compute; reflexivity|].
    split; [done|]. split; [vm_compute; reflexivity|]. split; [left|]. split; [done|]. split; [done|].
    eapply no_parent; [vm_compute; reflexivity|]. intros r u Hr. by apply elem_of_nil in Hr.
  - eexists _, _, _, _, [vint 4], (vint 4). split; [reflexivity|]. split; [vm_compute; reflexivity|].
    split; [done|]. split; [vm_compute; reflexivity|]. split; [left|]. split; [done|]. split; [done|].
    eapply no_parent; [vm_compute; reflexivity|]. intros r u Hr Hu.
    apply elem_of_list_singleton in Hr. subst r. cbn in Hu. assert (u = vint 3) as -> by (unfold vint; congruence).
    intros [[A B]|A]; done.
  - eexists _, _, _, _, [vint 4], (vint 4). split; [reflexivity|]. split; [vm_compute; reflexivity|].
    split; [done|]. split; [vm_compute; reflexivity|]. split; [right; left|]. split; [done|]. split; [done|].
    eapply no_parent; [vm_compute; reflexivity|]. intros r u Hr Hu.
    apply elem_of_list_singleton in Hr. subst r. cbn in Hu. assert (u = vint 3) as -> by (unfold vint; congruence).
    intros [[A B]|A]; done.
Qed.
Print Assumptions foreign_key_dangling_refuted.

(** A primary key that is also a foreign key is checked while it is NULL, and generated after. *)
Theorem foreign_key_generated_refuted :
  let cols := [mkC "p" TInt true true false None None (Some (mkFk "parent" "id"))] in
  let w := irun cast_ints [OCreate "parent" parent_cols; OCreate "child" cols] w_init in
  exists w', insert_sql cast_ints always 0 "child" [] (SVals [[vnull TInt]]) w = (true, w')
    /\ the_tabs w' "child" = Some (cols, [[vint 1]])
    /\ ~ refers (the_tabs w') (mkFk "parent" "id") (vint 1).
Proof.
  eexists. split; [vm_compute; reflexivity|]. split; [vm_compute; reflexivity|].
  eapply no_parent; [vm_compute; reflexivity|]. intros r u Hr. by apply elem_of_nil in Hr.
Qed.
Print Assumptions foreign_key_generated_refuted.

(** ** C70: a statement that fails changes nothing *)

(** What a failed INSERT ... VALUES leaves is the rows before the one that failed; an INSERT of one
    row that fails leaves nothing. *)
Theorem failed_insert_partial : forall cast fits now t names given w w' cols rows,
  cast_ok cast ->
  the_tabs w t = Some (cols, rows) ->
  NoDup (map c_name cols) -> NoDup names ->
  insert_sql cast fits now t names (SVals given) w = (false, w') ->
  exists news, the_tabs w' t = Some (cols, rows ++ news)
    /\ (forall t', t' <> t -> the_tabs w' t' = the_tabs w t')
    /\ (length news < length given \/ news = [])%nat
    /\ (length given = 1%nat -> forall t', the_tabs w' t' = the_tabs w t').
Proof.
  intros cast fits now t names given w w' cols rows OK HT ND NN E.
  destruct (insert_values_sql _ _ _ _ _ _ _ _ _ _ _ OK HT ND NN E) as (news & A & B & C & D).
  exists news. split; [done|]. split; [done|]. split; [destruct B as [B|[B _]]; auto|].
  intros L t'. destruct (decide (t' = t)) as [->|N]; [|by apply C].
  assert (news = []) as ->.
  { destruct B as [B|[B _]]; [|done]. destruct news; [done|cbn in B; lia]. }
  by rewrite A, app_nil_r.
Qed.
Print Assumptions failed_insert_partial.

Theorem failed_insert_refuted :
  exists w', insert_sql cast_ints always 0 "child" [] (SVals [[vint 3]; [vint 4]]) fam_w = (false, w')
    /\ the_tabs fam_w "child" = Some (child_cols, [])
    /\ the_tabs w' "child" = Some (child_cols, [[vint 3]]).
Proof. eexists. split; [vm_compute; reflexivity|]. vm_compute. done. Qed.
Print Assumptions failed_insert_refuted.

(** ** C71: keys and unique columns *)

(** When the statements leave the key of a table to the engine, and at most 2^32 keys are
    generated, no two of its rows have the same key. *)
Theorem generated_keys_unique_partial : forall cast os t i n cols rows,
  Forall (key_left t i n) os ->
  Z.of_nat (length (w_gen (irun cast os w_init))) <= 4294967296 ->
  the_tabs (irun cast os w_init) t = Some (cols, rows) ->
  column_unique i rows.
Proof.
  intros cast os t i n cols rows F L HT.
  assert (P : pkinv t i n (irun cast os w_init)).
  { apply irun_pkinv; [done| |apply pkinv_init]. intros tb H. cbn in H. by rewrite lookup_empty in H. }
  specialize (P (generated_keys_fresh cast os L)).
  unfold the_tabs in HT. destruct (w_tabs _ !! t) as [tb|] eqn:T; [|done]. cbn in HT.
  assert (rows = t_rows tb) as -> by congruence.
  destruct (P tb T) as (_ & R & ND).
  intros a b ra rb u v AB Ha Hb Hu Hv S1.
  destruct (R ra) as (ka & Ka & _); [by eapply elem_of_list_lookup_2|].
  destruct (R rb) as (kb & Kb & _); [by eapply elem_of_list_lookup_2|].
  assert (u = mkV TInt (PNum ka)) as -> by congruence. assert (v = mkV TInt (PNum kb)) as -> by congruence.
  destruct S1 as [[A B]|A]; [done|]. apply AB.
  apply (NoDup_lookup (map (fun r : list IVal => r !! i) (t_rows tb)) a b (ra !! i) ND);
    change (@map (list IVal) (option IVal)) with (@fmap list list_fmap (list IVal) (option IVal));
    rewrite list_lookup_fmap.
  - by rewrite Ha.
  - rewrite Hb. cbn. congruence.
Qed.
Print Assumptions generated_keys_unique_partial.

Example generated_keys_unique_ex :
  let os := [OCreate "t" ex_cols; OInsert always 0 "t" ["name"] (SVals [[vtext "x"]; [vtext "y"]]);
             OValues always 0 "t" [vnull TInt; vtext "z"];
             OUpdate always always [(1%nat, fun _ => Some (vtext "w"))] "t"] in
  Forall (key_left "t" 0 "id") os
  /\ Z.of_nat (length (w_gen (irun cast_ints os w_init))) <= 4294967296
  /\ exists rows, the_tabs (irun cast_ints os w_init) "t" = Some (ex_cols, rows) /\ length rows = 3%nat.
Proof.
  cbn [key_left]. split; [|split; [vm_compute; congruence|]].
  - constructor; [intros _; by eexists|].
    constructor; [intros _; split; [done|]; split; [|by eexists]; apply (bool_decide_unpack _); vm_compute; exact I|].
    constructor; [intros _; done|].
    constructor; [intros _; apply (bool_decide_unpack _); vm_compute; exact I|]. constructor.
  - eexists. split; [vm_compute; reflexivity|]. done.
Qed.

(** Primary keys, UNIQUE and CHECK are not looked at: whatever the table declares, a full row is
    accepted a second time. *)
Theorem insert_duplicate_refuted : forall fits now t vals w cols rows,
  the_tabs w t = Some (cols, rows) ->
  length vals = length cols -> (forall v, v ∈ vals -> is_null v = false) -> fits vals = true ->
  exists w1 w2, txn_insert_values fits now t vals w = (true, w1)
    /\ txn_insert_values fits now t vals w1 = (true, w2)
    /\ the_tabs w2 t = Some (cols, rows ++ [vals; vals]).
Proof.
  intros fits now t vals w cols rows HT L H F.
  assert (H' : forall i c v, cols !! i = Some c -> vals !! i = Some v -> is_null v = true -> c_pk c = false).
  { intros i c v _ Hv N. rewrite H in N; [done|]. by eapply elem_of_list_lookup_2. }
  destruct (insert_null_refuted fits now t vals w cols rows HT L H' F) as (w1 & E1 & T1).
  destruct (insert_null_refuted fits now t vals w1 cols _ T1 L H' F) as (w2 & E2 & T2).
  exists w1, w2. split; [done|]. split; [done|]. rewrite T2, <- app_assoc. done.
Qed.
Print Assumptions insert_duplicate_refuted.

Example insert_duplicate_refuted_ex :
  let cols := [mkC "id" TInt true true true (Some "id > 10") None None] in
  let os := [OCreate "u" cols; OInsert always 0 "u" [] (SVals [[vint 5]]);
             OInsert always 0 "u" ["id"] (SVals [[vint 5]])] in
  the_tabs (irun cast_ints os w_init) "u" = Some (cols, [[vint 5]; [vint 5]])
  /\ ~ column_unique 0 [[vint 5]; [vint 5]].
Proof.
  split; [vm_compute; done|].
  intros H. apply (H 0%nat 1%nat _ _ _ _ ltac:(done) eq_refl eq_refl eq_refl eq_refl). by right.
Qed.
