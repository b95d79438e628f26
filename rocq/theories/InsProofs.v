(** Lemmas about InsModel.v. *)
From Coq Require Import ZArith String Ascii Lia.
From stdpp Require Import base list strings gmap.
From Verif Require Import InsSpec InsModel.
Local Open Scope Z_scope.

(** What the theorems need of the casts: a value of the type is left alone, NULL stays NULL, and
    the result has the type asked for. *)
Definition cast_ok (cast : IVal -> ITy -> option IVal) : Prop :=
  (forall v, cast v (v_ty v) = Some v)
  /\ (forall v ty u, cast v ty = Some u -> v_ty u = ty)
  /\ (forall v ty, is_null v = true -> cast v ty = Some (mkV ty PNull)).

Lemma null_eq v : is_null v = true -> v = mkV (v_ty v) PNull.
Proof. destruct v as [ty p]. unfold is_null. cbn. by destruct p. Qed.

Lemma cast_ints_ok : cast_ok cast_ints.
Proof.
  unfold cast_ok. split; [|split].
  - intros v. unfold cast_ints. by rewrite bool_decide_eq_true_2.
  - intros v ty u. unfold cast_ints. case_bool_decide as E; [congruence|].
    destruct (is_null v); [intros H; injection H as <-; done|].
    destruct (v_pay v); try congruence. destruct (int_range (v_ty v)); [|congruence].
    destruct (int_range ty) as [[lo hi]|]; [|congruence].
    destruct ((lo <=? z) && (z <=? hi)); [|congruence]. intros H; injection H as <-; done.
  - intros v ty H. unfold cast_ints. case_bool_decide as E.
    + rewrite (null_eq v H) at 1. by rewrite E.
    + by rewrite H.
Qed.

(** ** Defaults *)
Lemma up_ascii_any a b :
  (a = b \/ ((65 <= nat_of_ascii b <= 90)%nat /\ nat_of_ascii a = (nat_of_ascii b + 32)%nat)) ->
  (nat_of_ascii b < 97)%nat -> up_ascii a = b.
Proof.
  intros [->|[Hb Ha]] L; unfold up_ascii.
  - destruct (Nat.leb_spec 97 (nat_of_ascii b)); [lia|done].
  - rewrite Ha.
    destruct (Nat.leb_spec 97 (nat_of_ascii b + 32)); [|lia].
    destruct (Nat.leb_spec (nat_of_ascii b + 32) 122); [|lia]. cbn [andb].
    replace (nat_of_ascii b + 32 - 32)%nat with (nat_of_ascii b) by lia.
    apply ascii_nat_embedding.
Qed.

Lemma any_up_ascii a b : up_ascii a = b ->
  a = b \/ ((65 <= nat_of_ascii b <= 90)%nat /\ nat_of_ascii a = (nat_of_ascii b + 32)%nat).
Proof.
  unfold up_ascii.
  destruct (Nat.leb_spec 97 (nat_of_ascii a)); [|by left].
  destruct (Nat.leb_spec (nat_of_ascii a) 122); [|by left]. cbn [andb]. intros <-. right.
  rewrite nat_ascii_embedding by lia. lia.
Qed.

Lemma up_string_any s u :
  Forall (fun b => (nat_of_ascii b < 97)%nat) (list_ascii_of_string u) ->
  in_any_case s u <-> up_string s = u.
Proof.
  unfold in_any_case. revert u. induction s as [|a s IH]; intros u F; cbn.
  - split; [intros H; inversion H as [E|]; by destruct u|intros <-; constructor].
  - destruct u as [|b u]; cbn.
    + split; intros H; inversion H.
    + cbn in F. inversion F as [|? ? Fb Fu]; subst. split.
      * intros H. inversion H as [|? ? ? ? Hab Hsu]; subst.
        rewrite (up_ascii_any a b) by done. f_equal. by apply IH.
      * intros H. inversion H; subst. constructor; [by apply any_up_ascii|]. by apply IH.
Qed.

Lemma is_now_spec v : is_now v = true <-> asks_now v.
Proof.
  unfold is_now, asks_now. destruct (v_pay v) as [|z|s] eqn:E.
  - split; [done|]. by intros (s & ? & _).
  - split; [done|]. by intros (s & ? & _).
  - rewrite orb_true_iff, !String.eqb_eq.
    assert (F1 : Forall (fun b => (nat_of_ascii b < 97)%nat)
                   (list_ascii_of_string "CURRENT_TIMESTAMP")).
    { cbn [list_ascii_of_string]. repeat constructor; vm_compute; lia. }
    assert (F2 : Forall (fun b => (nat_of_ascii b < 97)%nat) (list_ascii_of_string "NOW()")).
    { cbn [list_ascii_of_string]. repeat constructor; vm_compute; lia. }
    split.
    + intros H. exists s. split; [done|].
      destruct H as [H|H]; [left|right]; by apply up_string_any.
    + intros (s' & Es & H). assert (s' = s) as -> by congruence.
      destruct H as [H|H]; [left|right]; by apply up_string_any.
Qed.

Lemma missing_value_spec now c v : missing_value now c = Some v -> default_of now c v.
Proof.
  unfold missing_value, default_of. destruct (c_default c) as [d|].
  - destruct (is_now d) eqn:E; intros H; injection H as <-; split; intros A; try done.
    + destruct A. by apply is_now_spec.
    + apply is_now_spec in A. congruence.
  - destruct (c_notnull c); [done|]. intros H. split; congruence.
Qed.

(** ** Expanding a row *)
Lemma expand_cols_spec now cols : forall nx vals row nx' ks,
  expand_cols now nx cols vals = (Some row, nx', ks) ->
  stored_row now cols vals row ks.
Proof.
  induction cols as [|c cs IH]; intros nx vals row nx' ks E; cbn [expand_cols] in E.
  - assert (row = []) as -> by congruence. split; [done|]. intros i c v H; by rewrite lookup_nil in H.
  - destruct (match vals with v :: _ => is_null v && c_pk c | [] => c_pk c end) eqn:K.
    + destruct (expand_cols now (wrap32 (nx + 1)) cs (tail vals)) as [[r nx1] ks1] eqn:E1.
      destruct r as [r|]; cbn in E; [|congruence].
      assert (row = mkV TInt (PNum nx) :: r) as -> by congruence.
      assert (ks = nx :: ks1) as -> by congruence.
      destruct (IH _ _ _ _ _ E1) as [L Sp]. split; [cbn; lia|].
      intros i d v Hi Hv. destruct i as [|i]; cbn in Hi, Hv.
      * assert (d = c) as -> by congruence.
        destruct vals as [|g vals]; cbn.
        -- rewrite K. exists nx. split; [congruence|]. left.
        -- rewrite K. exists nx. split; [congruence|]. left.
      * specialize (Sp i d v Hi Hv).
        assert (EG : vals !! S i = tail vals !! i) by (by destruct vals). rewrite EG.
        destruct (tail vals !! i) as [g|].
        -- destruct (is_null g && c_pk d); [|done].
           destruct Sp as (k & ? & ?). exists k. split; [done|]. by right.
        -- destruct (c_pk d); [|done].
           destruct Sp as (k & ? & ?). exists k. split; [done|]. by right.
    + destruct (match vals with v :: _ => Some v | [] => missing_value now c end) as [x|] eqn:X;
        [|congruence].
      destruct (expand_cols now nx cs (tail vals)) as [[r nx1] ks1] eqn:E1.
      destruct r as [r|]; cbn in E; [|congruence].
      assert (row = x :: r) as -> by congruence.
      assert (ks = ks1) as -> by congruence.
      destruct (IH _ _ _ _ _ E1) as [L Sp]. split; [cbn; lia|].
      intros i d v Hi Hv. destruct i as [|i]; cbn in Hi, Hv.
      * assert (d = c) as -> by congruence. assert (v = x) as -> by congruence.
        destruct vals as [|g vals]; cbn.
        -- rewrite K. by apply missing_value_spec.
        -- rewrite K. congruence.
      * specialize (Sp i d v Hi Hv).
        assert (EG : vals !! S i = tail vals !! i) by (by destruct vals). by rewrite EG.
Qed.

Lemma expand_spec now cols nx vals row nx' ks :
  expand now nx cols vals = (Some row, nx', ks) ->
  stored_row now cols vals row ks /\ (length vals <= length cols)%nat.
Proof.
  unfold expand. destruct (Nat.ltb_spec (length cols) (length vals)); [congruence|].
  intros E. split; [by eapply expand_cols_spec|lia].
Qed.

(** Whether an expansion fails. *)
Lemma expand_cols_fails now cols : forall nx vals,
  fst (fst (expand_cols now nx cols vals)) = None <->
  exists i c, cols !! i = Some c /\ vals !! i = None
    /\ c_pk c = false /\ c_default c = None /\ c_notnull c = true.
Proof.
  induction cols as [|c cs IH]; intros nx vals; cbn [expand_cols].
  - split; [done|]. intros (i & c & H & _). by rewrite lookup_nil in H.
  - assert (EG : forall i, vals !! S i = tail vals !! i) by (intros; by destruct vals).
    destruct (match vals with v :: _ => is_null v && c_pk c | [] => c_pk c end) eqn:K.
    + specialize (IH (wrap32 (nx + 1)) (tail vals)).
      destruct (expand_cols now (wrap32 (nx + 1)) cs (tail vals)) as [[r nx1] ks1]. cbn in IH.
      destruct r as [r|]; cbn.
      * split; [done|]. intros (i & d & Hi & Hv & P & D & N). destruct i as [|i]; cbn in Hi.
        -- assert (d = c) as -> by congruence. destruct vals as [|g vals]; [congruence|done].
        -- assert (X9 : Some r = None) by (apply IH; exists i, d; rewrite <- EG; done). done.
      * split; [|done]. intros _. destruct IH as [IH _]. destruct (IH eq_refl) as (i & d & Hi & Hv & R).
        exists (S i), d. rewrite EG. done.
    + destruct (match vals with v :: _ => Some v | [] => missing_value now c end) as [x|] eqn:X.
      * specialize (IH nx (tail vals)).
        destruct (expand_cols now nx cs (tail vals)) as [[r nx1] ks1]. cbn in IH.
        destruct r as [r|]; cbn.
        -- split; [done|]. intros (i & d & Hi & Hv & P & D & N). destruct i as [|i]; cbn in Hi.
           ++ assert (d = c) as -> by congruence. destruct vals as [|g vals]; [|done].
              unfold missing_value in X. rewrite D, N in X. congruence.
           ++ assert (X9 : Some r = None) by (apply IH; exists i, d; rewrite <- EG; done). done.
        -- split; [|done]. intros _. destruct IH as [IH _]. destruct (IH eq_refl) as (i & d & Hi & Hv & R).
           exists (S i), d. rewrite EG. done.
      * split; [|done]. intros _. cbn. destruct vals as [|g vals]; [|congruence].
        unfold missing_value in X. exists 0%nat, c. cbn.
        destruct (c_default c) as [d|]; [destruct (is_now d); congruence|].
        destruct (c_notnull c); [done|congruence].
Qed.

(** A second expansion changes nothing. *)
Lemma expand_cols_full now cols : forall nx vals,
  length vals = length cols ->
  (forall i c v, cols !! i = Some c -> vals !! i = Some v -> is_null v && c_pk c = false) ->
  expand_cols now nx cols vals = (Some vals, nx, []).
Proof.
  induction cols as [|c cs IH]; intros nx vals L H; destruct vals as [|v vals]; try done.
  cbn [expand_cols]. rewrite (H 0%nat c v) by done. cbn [tail].
  rewrite IH; [done|cbn in L; lia|]. intros i d u Hi Hu. by apply (H (S i) d u).
Qed.

Lemma stored_row_keys now cols vals row ks :
  stored_row now cols vals row ks ->
  forall i c v, cols !! i = Some c -> row !! i = Some v -> is_null v && c_pk c = false.
Proof.
  intros [L Sp] i c v Hc Hv. specialize (Sp i c v Hc Hv).
  destruct (c_pk c) eqn:P; [|by rewrite andb_false_r].
  rewrite andb_true_r. destruct (vals !! i) as [g|].
  - rewrite andb_true_r in Sp. destruct (is_null g) eqn:G.
    + destruct Sp as (k & -> & _). done.
    + by subst.
  - destruct Sp as (k & -> & _). done.
Qed.

Lemma expand_again now cols nx vals row nx' ks :
  expand now nx cols vals = (Some row, nx', ks) ->
  forall now2 nx2, expand now2 nx2 cols row = (Some row, nx2, []).
Proof.
  intros E now2 nx2. apply expand_spec in E. destruct E as [S _].
  unfold expand. rewrite (proj1 S), Nat.ltb_irrefl.
  apply expand_cols_full; [apply S|by eapply stored_row_keys].
Qed.

(** ** The keys *)
Definition gens_from (m : Z) (n : nat) : list Z := map (fun k => wrap32 (1 + m + k)) (seqZ 0 (Z.of_nat n)).

Lemma wrap32_add a b : wrap32 (wrap32 a + b) = wrap32 (a + b).
Proof.
  unfold wrap32. f_equal.
  replace ((a + 2147483648) mod 4294967296 - 2147483648 + b + 2147483648)
    with ((a + 2147483648) mod 4294967296 + b) by lia.
  rewrite Zplus_mod_idemp_l. f_equal. lia.
Qed.

Lemma wrap32_inj a b : wrap32 a = wrap32 b -> Z.abs (a - b) < 4294967296 -> a = b.
Proof.
  unfold wrap32. intros H L.
  assert (M : (a + 2147483648) mod 4294967296 = (b + 2147483648) mod 4294967296) by lia.
  pose proof (Z.div_mod (a + 2147483648) 4294967296 ltac:(lia)).
  pose proof (Z.div_mod (b + 2147483648) 4294967296 ltac:(lia)).
  rewrite M in H0. nia.
Qed.

Lemma gens_from_S m n : gens_from m (S n) = wrap32 (1 + m) :: gens_from (m + 1) n.
Proof.
  unfold gens_from. rewrite Nat2Z.inj_succ. rewrite seqZ_cons by lia. cbn [map].
  replace (1 + m + 0) with (1 + m) by lia. f_equal.
  replace (Z.pred (Z.succ (Z.of_nat n))) with (Z.of_nat n) by lia.
  rewrite <- (fmap_add_seqZ 1 0). change (@fmap list list_fmap Z Z) with (@map Z Z).
  rewrite map_map. apply map_ext. intros k. f_equal. lia.
Qed.

Lemma gens_from_app m a b : gens_from m a ++ gens_from (m + Z.of_nat a) b = gens_from m (a + b).
Proof.
  revert m. induction a as [|a IH]; intros m.
  - cbn [Nat.add]. replace (m + Z.of_nat 0) with m by lia. done.
  - change (S a + b)%nat with (S (a + b)). rewrite !gens_from_S. cbn [app]. f_equal.
    rewrite <- IH. do 2 f_equal. lia.
Qed.

Lemma gens_from_length m n : length (gens_from m n) = n.
Proof. unfold gens_from. rewrite map_length, seqZ_length. lia. Qed.

Lemma gens_from_elem m n x : x ∈ gens_from m n <-> exists k, 0 <= k < Z.of_nat n /\ x = wrap32 (1 + m + k).
Proof.
  unfold gens_from. rewrite elem_of_list_In, in_map_iff. split.
  - intros (k & <- & H). apply elem_of_list_In, elem_of_seqZ in H. exists k. split; [lia|done].
  - intros (k & H & ->). exists k. split; [done|]. apply elem_of_list_In, elem_of_seqZ. lia.
Qed.

Lemma gens_from_NoDup n : forall m, (Z.of_nat n <= 4294967296) -> NoDup (gens_from m n).
Proof.
  induction n as [|n IH]; intros m L.
  - unfold gens_from. cbn. constructor.
  - rewrite gens_from_S. constructor; [|apply IH; lia].
    rewrite gens_from_elem. intros (k & Hk & E). apply wrap32_inj in E; lia.
Qed.

Lemma expand_cols_keys now cols : forall m nx vals r nx' ks,
  nx = wrap32 (1 + m) ->
  expand_cols now nx cols vals = (r, nx', ks) ->
  ks = gens_from m (length ks) /\ nx' = wrap32 (1 + m + Z.of_nat (length ks)).
Proof.
  induction cols as [|c cs IH]; intros m nx vals r nx' ks Hnx E; cbn [expand_cols] in E.
  - assert (ks = []) as -> by congruence. assert (nx' = nx) as -> by congruence.
    split; [done|]. rewrite Hnx. f_equal. cbn. lia.
  - destruct (match vals with v :: _ => is_null v && c_pk c | [] => c_pk c end).
    + destruct (expand_cols now (wrap32 (nx + 1)) cs (tail vals)) as [[r1 nx1] ks1] eqn:E1.
      assert (ks = nx :: ks1) as -> by congruence. assert (nx' = nx1) as -> by congruence.
      assert (HX : wrap32 (nx + 1) = wrap32 (1 + (m + 1))) by (rewrite Hnx, wrap32_add; f_equal; lia).
      destruct (IH (m + 1) _ _ _ _ _ HX E1) as [K N].
      cbn [length]. rewrite gens_from_S, <- Hnx. split; [by f_equal|].
      rewrite N. f_equal. lia.
    + destruct (match vals with v :: _ => Some v | [] => missing_value now c end) as [x|].
      * destruct (expand_cols now nx cs (tail vals)) as [[r1 nx1] ks1] eqn:E1.
        assert (ks = ks1) as -> by congruence. assert (nx' = nx1) as -> by congruence.
        by eapply IH.
      * assert (ks = []) as -> by congruence. assert (nx' = nx) as -> by congruence.
        split; [done|]. rewrite Hnx. f_equal. cbn. lia.
Qed.

Definition kinv (w : World) : Prop :=
  w_gen w = gens_from 0 (length (w_gen w)) /\ w_next w = wrap32 (1 + Z.of_nat (length (w_gen w))).

Lemma kinv_init : kinv w_init.
Proof. split; vm_compute; done. Qed.

Lemma expand_kinv now cols vals w r nx ks :
  expand now (w_next w) cols vals = (r, nx, ks) -> kinv w -> kinv (with_keys nx ks w).
Proof.
  intros E [K N]. unfold expand in E.
  destruct (length cols <? length vals)%nat.
  - assert (ks = []) as -> by congruence. assert (nx = w_next w) as -> by congruence.
    split; cbn; rewrite app_nil_r; done.
  - destruct (expand_cols_keys now cols (Z.of_nat (length (w_gen w))) _ _ _ _ _ N E) as [K2 N2].
    split; cbn [with_keys w_gen w_next].
    + rewrite app_length, <- gens_from_app, <- K. f_equal. rewrite Z.add_0_l. done.
    + rewrite N2, app_length. f_equal. lia.
Qed.

Lemma add_row_kinv t row w : kinv w -> kinv (add_row t row w).
Proof. unfold add_row. destruct (w_tabs w !! t); done. Qed.

Lemma heap_insert_kinv fits now t vals w :
  kinv w -> kinv (snd (heap_insert_values fits now t vals w)).
Proof.
  intros K. unfold heap_insert_values. destruct (w_tabs w !! t) as [tb|]; [|done].
  destruct (expand now (w_next w) (t_cols tb) vals) as [[r nx] ks] eqn:E.
  pose proof (expand_kinv _ _ _ _ _ _ _ E K). destruct r as [row|]; [|done].
  destruct (fits row); [|done]. by apply add_row_kinv.
Qed.

Lemma txn_insert_kinv fits now t vals w :
  kinv w -> kinv (snd (txn_insert_values fits now t vals w)).
Proof.
  intros K. unfold txn_insert_values. destruct (w_tabs w !! t) as [tb|]; [|done].
  destruct (expand now (w_next w) (t_cols tb) vals) as [[r nx] ks] eqn:E.
  pose proof (expand_kinv _ _ _ _ _ _ _ E K). destruct r as [row|]; [|done].
  by apply heap_insert_kinv.
Qed.

Lemma bulk_insert_kinv fits now t rows : forall w,
  kinv w -> kinv (snd (bulk_insert fits now t rows w)).
Proof.
  induction rows as [|vals rows IH]; intros w K; [done|]. cbn [bulk_insert].
  destruct (w_tabs w !! t) as [tb|]; [|done].
  destruct (expand now (w_next w) (t_cols tb) vals) as [[r nx] ks] eqn:E.
  pose proof (expand_kinv _ _ _ _ _ _ _ E K). destruct r as [row|]; [|done].
  destruct (fits row); [|done]. by apply IH, add_row_kinv.
Qed.

(** ** Inserting *)
Lemma txn_insert_true fits now t vals w w' :
  txn_insert_values fits now t vals w = (true, w') ->
  exists tb row nx ks, w_tabs w !! t = Some tb
    /\ expand now (w_next w) (t_cols tb) vals = (Some row, nx, ks) /\ fits row = true
    /\ w' = add_row t row (with_keys nx ks w).
Proof.
  unfold txn_insert_values. destruct (w_tabs w !! t) as [tb|] eqn:T; [|congruence].
  destruct (expand now (w_next w) (t_cols tb) vals) as [[r nx] ks] eqn:E.
  destruct r as [row|]; [|congruence].
  unfold heap_insert_values. cbn [with_keys w_tabs]. rewrite T.
  cbn [with_keys w_next]. rewrite (expand_again _ _ _ _ _ _ _ E).
  destruct (fits row) eqn:F; [|congruence]. intros H.
  exists tb, row, nx, ks. split; [done|]. split; [done|]. split; [done|].
  assert (w' = add_row t row (with_keys nx [] (with_keys nx ks w))) as -> by congruence.
  unfold with_keys. cbn. by rewrite app_nil_r.
Qed.

Lemma txn_insert_false fits now t vals w w' :
  txn_insert_values fits now t vals w = (false, w') ->
  w_tabs w' = w_tabs w.
Proof.
  unfold txn_insert_values. destruct (w_tabs w !! t) as [tb|] eqn:T; [|congruence].
  destruct (expand now (w_next w) (t_cols tb) vals) as [[r nx] ks] eqn:E.
  destruct r as [row|]; [|intros H; by assert (w' = with_keys nx ks w) as -> by congruence].
  unfold heap_insert_values. cbn [with_keys w_tabs]. rewrite T.
  cbn [with_keys w_next]. rewrite (expand_again _ _ _ _ _ _ _ E).
  destruct (fits row) eqn:F; [congruence|]. intros H.
  by assert (w' = with_keys nx [] (with_keys nx ks w)) as -> by congruence.
Qed.

Lemma add_row_tabs t row w tb : w_tabs w !! t = Some tb ->
  w_tabs (add_row t row w) = <[t := mkT (t_cols tb) (t_rows tb ++ [row])]> (w_tabs w).
Proof. intros T. unfold add_row. by rewrite T. Qed.

(** ** The rows of a statement *)
Definition the_tabs (w : World) (t : string) : option (list ICol * list (list IVal)) :=
  (fun tb => (t_cols tb, t_rows tb)) <$> w_tabs w !! t.

Definition fk_good (w : World) (cols : list ICol) (row : list IVal) : Prop :=
  forall i c v f, cols !! i = Some c -> row !! i = Some v -> c_fk c = Some f ->
    c_pk c = false -> is_null v = false -> refers (the_tabs w) f v.

Definition grows (w w' : World) : Prop :=
  (forall t tb, w_tabs w !! t = Some tb -> exists tb', w_tabs w' !! t = Some tb'
    /\ t_cols tb' = t_cols tb /\ forall r, r ∈ t_rows tb -> r ∈ t_rows tb')
  /\ (forall k, k ∈ w_gen w -> k ∈ w_gen w').

Lemma grows_refl w : grows w w.
Proof. split; [|done]. intros t tb H. by exists tb. Qed.

Lemma grows_trans a b c : grows a b -> grows b c -> grows a c.
Proof.
  intros [H1 G1] [H2 G2]. split; [|auto]. intros t tb H.
  destruct (H1 _ _ H) as (tb1 & T1 & C1 & R1). destruct (H2 _ _ T1) as (tb2 & T2 & C2 & R2).
  exists tb2. split; [done|]. split; [congruence|auto].
Qed.

Lemma grows_add t row nx ks w : grows w (add_row t row (with_keys nx ks w)).
Proof.
  unfold add_row. cbn [with_keys w_tabs]. destruct (w_tabs w !! t) as [tb|] eqn:T.
  - split; cbn [w_tabs w_gen].
    + intros t' tb' H. destruct (decide (t = t')) as [->|N].
      * rewrite lookup_insert. exists (mkT (t_cols tb) (t_rows tb ++ [row])).
        assert (tb' = tb) as -> by congruence. split; [done|]. split; [done|].
        intros r Hr. cbn. apply elem_of_app. by left.
      * rewrite lookup_insert_ne by done. by exists tb'.
    + intros k Hk. apply elem_of_app. by left.
  - split; cbn; [intros t' tb' H; by exists tb'|].
    intros k Hk. apply elem_of_app. by left.
Qed.

Lemma refers_grows w w' f v : grows w w' -> refers (the_tabs w) f v -> refers (the_tabs w') f v.
Proof.
  intros [G _] (cols & rows & i & c & T & Hc & Hn & r & u & Hr & Hu & Hs).
  unfold the_tabs in T. destruct (w_tabs w !! fk_table f) as [tb|] eqn:E; [|done].
  destruct (G _ _ E) as (tb' & T' & C' & R').
  cbn in T. assert (cols = t_cols tb) as -> by congruence. assert (rows = t_rows tb) as -> by congruence.
  exists (t_cols tb'), (t_rows tb'), i, c. unfold the_tabs. rewrite T'. cbn.
  split; [done|]. rewrite C'. split; [done|]. split; [done|]. exists r, u. auto.
Qed.

Lemma veq_same a b : veq a b = true -> same_value a b.
Proof.
  unfold veq, same_value. rewrite orb_true_iff, !andb_true_iff, !bool_decide_eq_true.
  intros [[A B]|[A B]].
  - left. unfold is_null in A, B. destruct (v_pay a), (v_pay b); done.
  - right. destruct a, b. cbn in *. congruence.
Qed.

Lemma col_index_spec name cols i : col_index name cols = Some i ->
  exists c, cols !! i = Some c /\ c_name c = name.
Proof.
  revert i. induction cols as [|c cs IH]; intros i H; cbn in H; [done|].
  destruct (String.eqb_spec (c_name c) name) as [E|E].
  - assert (i = 0%nat) as -> by congruence. by exists c.
  - destruct (col_index name cs) as [j|] eqn:J; cbn in H; [|done].
    assert (i = S j) as -> by congruence. apply (IH j eq_refl).
Qed.

Lemma col_index_none name cols : col_index name cols = None <-> name ∉ map c_name cols.
Proof.
  induction cols as [|c cs IH]; cbn.
  - split; [|done]. intros _ H. by apply elem_of_nil in H.
  - rewrite not_elem_of_cons. destruct (String.eqb_spec (c_name c) name) as [E|E].
    + split; [done|]. intros [H _]. congruence.
    + destruct (col_index name cs); cbn.
      * split; [done|]. intros [_ H]. by apply IH in H.
      * split; [|done]. intros _. split; [congruence|]. by apply IH.
Qed.

Lemma col_index_first name cols i c : NoDup (map c_name cols) ->
  cols !! i = Some c -> c_name c = name -> col_index name cols = Some i.
Proof.
  revert i. induction cols as [|d cs IH]; intros i N Hi Hn; [done|]. cbn in *.
  inversion N as [|? ? N1 N2]; subst.
  destruct i as [|i]; cbn in Hi.
  - assert (d = c) as -> by congruence. by rewrite String.eqb_refl.
  - destruct (String.eqb_spec (c_name d) (c_name c)) as [E|E].
    + destruct N1. rewrite E. apply elem_of_list_In, in_map, elem_of_list_In.
      by eapply elem_of_list_lookup_2.
    + by rewrite (IH i N2 Hi eq_refl).
Qed.

Lemma fk_ref_refers w f v : fk_ref w f v = true -> refers (the_tabs w) f v.
Proof.
  unfold fk_ref. destruct (w_tabs w !! fk_table f) as [tb|] eqn:T; [|done].
  destruct (col_index (fk_col f) (t_cols tb)) as [i|] eqn:I; [|done].
  intros H. apply existsb_exists in H. destruct H as (r & Hr & H).
  destruct (r !! i) as [u|] eqn:U; [|done].
  destruct (col_index_spec _ _ _ I) as (c & Hc & Hn).
  exists (t_cols tb), (t_rows tb), i, c. unfold the_tabs. rewrite T. split; [done|].
  split; [done|]. split; [done|]. exists r, u. split; [by apply elem_of_list_In|].
  split; [done|]. by apply veq_same.
Qed.

Lemma fk_check_spec w cols : forall vals, fk_check w cols vals = true ->
  forall i c v f, cols !! i = Some c -> vals !! i = Some v -> c_fk c = Some f ->
    is_null v = false -> refers (the_tabs w) f v.
Proof.
  induction cols as [|d cs IH]; intros vals H i c v f Hc Hv Hf Hn; [done|].
  cbn [fk_check] in H. destruct i as [|i]; cbn in Hc.
  - assert (d = c) as -> by congruence. rewrite Hf in H. destruct vals as [|u vals]; [done|].
    cbn in Hv. assert (u = v) as -> by congruence. rewrite Hn in H. cbn in H.
    apply andb_true_iff in H. apply fk_ref_refers. apply H.
  - assert (EG : tail vals !! i = Some v) by (by destruct vals).
    destruct (c_fk d).
    + destruct vals as [|u vals]; [done|]. apply andb_true_iff in H. destruct H as [_ H].
      by eapply IH.
    + by eapply IH.
Qed.

Section Loop.
Context (cast : IVal -> ITy -> option IVal).

(** What one row of a statement became. *)
Definition became (now : Z) (w : World) (src cols : list ICol) (vals row : list IVal) : Prop :=
  (exists ks, stored_row now cols (map_values cast vals src cols) row ks
              /\ forall k, k ∈ ks -> k ∈ w_gen w)
  /\ fk_good w cols row.

Lemma became_grows now w w' src cols vals row :
  grows w w' -> became now w src cols vals row -> became now w' src cols vals row.
Proof.
  intros G [(ks & S1 & S2) F]. split.
  - exists ks. split; [done|]. intros k Hk. by apply G, S2.
  - intros i c v f A B C D E. eapply refers_grows; [done|]. by eapply F.
Qed.

Lemma insert_loop_spec fits now t src rows : forall w b w' tb,
  w_tabs w !! t = Some tb ->
  insert_loop cast fits now t src rows w = (b, w') ->
  exists news,
    w_tabs w' = <[t := mkT (t_cols tb) (t_rows tb ++ news)]> (w_tabs w)
    /\ Forall2 (became now w' src (t_cols tb)) (take (length news) rows) news
    /\ (if b then length news = length rows else (length news < length rows)%nat)
    /\ grows w w'.
Proof.
  induction rows as [|vals rows IH]; intros w b w' tb T E; cbn [insert_loop] in E.
  - assert (b = true) as -> by congruence. assert (w' = w) as -> by congruence.
    exists []. rewrite app_nil_r. split; [|split; [constructor|split; [done|apply grows_refl]]].
    rewrite insert_id; [done|]. rewrite T. by destruct tb.
  - rewrite T in E.
    assert (STOP : forall w1, w_tabs w1 = w_tabs w -> (forall k, k ∈ w_gen w -> k ∈ w_gen w1) ->
      exists news,
      w_tabs w1 = <[t := mkT (t_cols tb) (t_rows tb ++ news)]> (w_tabs w)
      /\ Forall2 (became now w1 src (t_cols tb)) (take (length news) (vals :: rows)) news
      /\ (length news < length (vals :: rows))%nat /\ grows w w1).
    { intros w1 E1 G1. exists []. rewrite app_nil_r.
      split; [|split; [constructor|split; [cbn; lia|]]].
      - rewrite E1, insert_id; [done|]. rewrite T. by destruct tb.
      - split; [|done]. intros t' tb' H'. rewrite E1. by exists tb'. }
    destruct (fk_check w (t_cols tb) (map_values cast vals src (t_cols tb))) eqn:FK.
    2:{ assert (b = false) as -> by congruence. assert (w' = w) as -> by congruence. by apply STOP. }
    destruct (txn_insert_values fits now t (map_values cast vals src (t_cols tb)) w) as [b1 w1] eqn:E1.
    destruct b1.
    2:{ assert (b = false) as -> by congruence. assert (w' = w1) as -> by congruence.
        apply STOP; [by eapply txn_insert_false|].
        clear -E1 T. unfold txn_insert_values in E1. rewrite T in E1.
        destruct (expand now (w_next w) (t_cols tb) _) as [[r nx] ks] eqn:X.
        destruct r as [row|].
        - unfold heap_insert_values in E1. cbn [with_keys w_tabs w_next] in E1. rewrite T in E1.
          rewrite (expand_again _ _ _ _ _ _ _ X) in E1.
          destruct (fits row); [congruence|].
          assert (w1 = with_keys nx [] (with_keys nx ks w)) as -> by congruence.
          intros k Hk. cbn. rewrite !elem_of_app. auto.
        - assert (w1 = with_keys nx ks w) as -> by congruence.
          intros k Hk. cbn. rewrite elem_of_app. auto. }
    destruct (txn_insert_true _ _ _ _ _ _ E1) as (tb0 & row & nx & ks & T0 & X & F & ->).
    assert (tb0 = tb) as -> by congruence. clear T0.
    set (wr := add_row t row (with_keys nx ks w)) in *.
    assert (TR : w_tabs wr = <[t := mkT (t_cols tb) (t_rows tb ++ [row])]> (w_tabs w)).
    { unfold wr. rewrite (add_row_tabs t row (with_keys nx ks w) tb) by done. done. }
    assert (TR1 : w_tabs wr !! t = Some (mkT (t_cols tb) (t_rows tb ++ [row]))).
    { rewrite TR. by rewrite lookup_insert. }
    destruct (IH wr b w' _ TR1 E) as (news & TN & FN & LN & GN). cbn [t_cols t_rows] in *.
    exists (row :: news).
    assert (GW : grows w wr) by apply grows_add.
    split; [|split; [|split]].
    + rewrite TN, TR, insert_insert. by rewrite <- app_assoc.
    + cbn [length take]. constructor; [|done].
      destruct (expand_spec _ _ _ _ _ _ _ X) as [SR _].
      eapply became_grows; [exact GN|]. split.
      * exists ks. split; [done|]. intros k Hk. unfold wr, add_row. cbn [with_keys w_tabs].
        rewrite T. cbn. apply elem_of_app. by right.
      * intros i c v f Hc Hv Hf Hp Hn. eapply refers_grows; [exact GW|].
        eapply (fk_check_spec _ _ _ FK i c v f); try done.
        destruct SR as [LR SR]. specialize (SR i c v Hc Hv).
        assert (LM : forall vs tg, length (by_position cast vs tg) = length tg).
        { intros vs tg. revert vs. induction tg as [|x tg IHt]; intros vs; [done|]. cbn.
          destruct vs; cbn; by rewrite IHt. }
        destruct (map_values cast vals src (t_cols tb) !! i) as [g|] eqn:G.
        -- rewrite Hp, andb_false_r in SR. by subst.
        -- exfalso. apply lookup_ge_None in G. apply lookup_lt_Some in Hc.
           unfold map_values in G. destruct (by_name src (t_cols tb)).
           ++ rewrite map_length in G. lia.
           ++ rewrite LM in G. lia.
    + destruct b; cbn [length]; lia.
    + by eapply grows_trans.
Qed.
End Loop.

(** ** The columns a VALUES row goes to *)
Lemma listed_spec names cols vs : listed names cols = Some vs ->
  map c_name vs = names /\ forall c, c ∈ vs -> c ∈ cols.
Proof.
  revert vs. induction names as [|n ns IH]; intros vs H; cbn in H.
  - assert (vs = []) as -> by congruence. split; [done|]. intros c Hc. by apply elem_of_nil in Hc.
  - destruct (col_index n cols) as [i|] eqn:I; [|done].
    destruct (col_index_spec _ _ _ I) as (c & Hc & Hn). rewrite Hc in H.
    destruct (listed ns cols) as [vs1|]; cbn in H; [|done].
    assert (vs = c :: vs1) as -> by congruence.
    destruct (IH vs1 eq_refl) as [M S1]. split; [cbn; congruence|].
    intros d Hd. apply elem_of_cons in Hd. destruct Hd as [->|Hd]; [by eapply elem_of_list_lookup_2|auto].
Qed.

Lemma by_name_listed vs cols : vs <> [] -> (forall c, c ∈ vs -> c ∈ cols) -> by_name vs cols = true.
Proof.
  intros N H. unfold by_name. destruct vs as [|c vs]; [done|].
  apply forallb_forall. intros d Hd. apply elem_of_list_In in Hd.
  destruct (col_index (c_name d) cols) eqn:E; [done|].
  apply col_index_none in E. destruct E. apply elem_of_list_In, in_map, elem_of_list_In. auto.
Qed.

Lemma eval_row_spec cast src : forall vals ev, cast_ok cast ->
  length vals = length src -> eval_row cast src vals = Some ev ->
  length ev = length src
  /\ forall j c v, src !! j = Some c -> vals !! j = Some v ->
       exists u, ev !! j = Some u /\ cast v (c_ty c) = Some u.
Proof.
  induction src as [|c cs IH]; intros vals ev OK L E; destruct vals as [|v vals]; try done; cbn [eval_row] in E.
  - assert (ev = []) as -> by congruence. done.
  - assert (HC : (if bool_decide (v_ty v = c_ty c) then Some v else cast v (c_ty c)) = cast v (c_ty c)).
    { case_bool_decide as B; [|done]. rewrite <- B. symmetry. apply OK. }
    rewrite HC in E. destruct (cast v (c_ty c)) as [u|] eqn:C; [|done].
    destruct (eval_row cast cs vals) as [ev1|] eqn:E1; cbn in E; [|done].
    assert (ev = u :: ev1) as -> by congruence.
    destruct (IH vals ev1 OK ltac:(cbn in L; lia) E1) as [L1 H1]. split; [cbn; lia|].
    intros [|j] d x Hd Hx; cbn in Hd, Hx.
    + assert (d = c) as -> by congruence. assert (x = v) as -> by congruence. exists u. done.
    + by apply H1.
Qed.

Lemma eval_rows_spec cast src rows ev : eval_rows cast src rows = Some ev ->
  Forall2 (fun r e => eval_row cast src r = Some e) rows ev.
Proof.
  revert ev. induction rows as [|r rows IH]; intros ev E; cbn in E.
  - assert (ev = []) as -> by congruence. constructor.
  - destruct (eval_row cast src r) as [x|] eqn:X; [|done].
    destruct (eval_rows cast src rows) as [xs|]; cbn in E; [|done].
    assert (ev = x :: xs) as -> by congruence. constructor; [done|]. by apply IH.
Qed.

Lemma map_values_listed cast vals vs cols i c : vs <> [] -> (forall d, d ∈ vs -> d ∈ cols) ->
  cols !! i = Some c ->
  map_values cast vals vs cols !! i = Some (value_by_name cast (c_name c) vals vs (c_ty c)).
Proof.
  intros N S1 Hc. unfold map_values. rewrite by_name_listed by done.
  change (@map ICol IVal) with (@fmap list list_fmap ICol IVal).
  by rewrite list_lookup_fmap, Hc.
Qed.

Lemma NoDup_name_eq cols (c d : ICol) : NoDup (map c_name cols) -> c ∈ cols -> d ∈ cols ->
  c_name c = c_name d -> c = d.
Proof.
  intros N Hc Hd E. apply elem_of_list_lookup in Hc, Hd. destruct Hc as [i Hi], Hd as [j Hj].
  pose proof (col_index_first _ _ _ _ N Hi eq_refl) as A.
  pose proof (col_index_first _ _ _ _ N Hj eq_refl) as B.
  rewrite E in A. assert (i = j) as -> by congruence. congruence.
Qed.

Lemma col_index_names name vs j c : NoDup (map c_name vs) -> vs !! j = Some c -> c_name c = name ->
  col_index name vs = Some j.
Proof. intros. by eapply col_index_first. Qed.

(** ** Arity *)
Definition winv (w : World) : Prop :=
  forall t tb r, w_tabs w !! t = Some tb -> r ∈ t_rows tb -> length r = length (t_cols tb).

Lemma winv_init : winv w_init.
Proof. intros t tb r H. cbn in H. by rewrite lookup_empty in H. Qed.

Lemma winv_add t row nx ks w tb : w_tabs w !! t = Some tb -> length row = length (t_cols tb) ->
  winv w -> winv (add_row t row (with_keys nx ks w)).
Proof.
  intros T L W t' tb' r. unfold add_row. cbn [with_keys w_tabs]. rewrite T. cbn [w_tabs].
  destruct (decide (t = t')) as [->|N].
  - rewrite lookup_insert. intros H. injection H as <-. cbn.
    rewrite elem_of_app. intros [H|H]; [by eapply W|]. apply elem_of_list_singleton in H. by subst.
  - rewrite lookup_insert_ne by done. apply W.
Qed.

Lemma winv_keys nx ks w : winv w -> winv (with_keys nx ks w).
Proof. done. Qed.

Lemma txn_insert_winv fits now t vals w : winv w -> winv (snd (txn_insert_values fits now t vals w)).
Proof.
  intros W. destruct (txn_insert_values fits now t vals w) as [[] w'] eqn:E; cbn.
  - destruct (txn_insert_true _ _ _ _ _ _ E) as (tb & row & nx & ks & T & X & F & ->).
    eapply winv_add; [done| |done]. apply expand_spec in X. apply X.
  - apply txn_insert_false in E. intros t' tb' r. rewrite E. apply W.
Qed.

Lemma bulk_insert_winv fits now t rows : forall w, winv w -> winv (snd (bulk_insert fits now t rows w)).
Proof.
  induction rows as [|vals rows IH]; intros w W; [done|]. cbn [bulk_insert].
  destruct (w_tabs w !! t) as [tb|] eqn:T; [|done].
  destruct (expand now (w_next w) (t_cols tb) vals) as [[r nx] ks] eqn:E.
  destruct r as [row|]; [|done]. destruct (fits row); [|done]. apply IH.
  eapply winv_add; [done| |done]. apply expand_spec in E. apply E.
Qed.

Lemma insert_loop_winv cast fits now t src rows : forall w,
  winv w -> winv (snd (insert_loop cast fits now t src rows w)).
Proof.
  induction rows as [|vals rows IH]; intros w W; [done|]. cbn [insert_loop].
  destruct (w_tabs w !! t) as [tb|] eqn:T; [|done].
  destruct (fk_check _ _ _); [|done].
  pose proof (txn_insert_winv fits now t (map_values cast vals src (t_cols tb)) w W) as W1.
  destruct (txn_insert_values _ _ _ _ _) as [[] w1]; [by apply IH|done].
Qed.

Lemma insert_loop_kinv cast fits now t src rows : forall w,
  kinv w -> kinv (snd (insert_loop cast fits now t src rows w)).
Proof.
  induction rows as [|vals rows IH]; intros w W; [done|]. cbn [insert_loop].
  destruct (w_tabs w !! t) as [tb|] eqn:T; [|done].
  destruct (fk_check _ _ _); [|done].
  pose proof (txn_insert_kinv fits now t (map_values cast vals src (t_cols tb)) w W) as W1.
  destruct (txn_insert_values _ _ _ _ _) as [[] w1]; [by apply IH|done].
Qed.

Lemma insert_sql_cases cast fits now t names src w :
  insert_sql cast fits now t names src w = (false, w)
  \/ exists tb scols rows, w_tabs w !! t = Some tb
     /\ insert_sql cast fits now t names src w = insert_loop cast fits now t scols rows w.
Proof.
  unfold insert_sql. destruct (w_tabs w !! t) as [tb|] eqn:T; [|by left].
  destruct (match names with [] => Some (t_cols tb) | _ :: _ => listed names (t_cols tb) end) as [vs|];
    [|by left].
  destruct src as [rows|scols rows].
  - destruct (forallb _ rows); [|by left]. destruct (eval_rows cast vs rows) as [ev|]; [|by left].
    right. by exists tb, vs, ev.
  - case_bool_decide; [|by left]. destruct (forallb _ rows); [|by left].
    right. by exists tb, scols, rows.
Qed.

Lemma assign_all_length asg old : forall row row', assign_all asg old row = Some row' ->
  length row' = length row.
Proof.
  induction asg as [|[i f] rest IH]; intros row row' E; cbn [assign_all] in E; [congruence|].
  destruct (i <? length row)%nat; [|done]. destruct (f old); [|done].
  rewrite (IH _ _ E). apply insert_length.
Qed.

Lemma update_rows_length n fits pick asg rows :
  (forall r, r ∈ rows -> length r = n) ->
  forall r, r ∈ snd (update_rows fits pick asg rows) -> length r = n.
Proof.
  induction rows as [|x rows IH]; intros H r Hr; [by apply elem_of_nil in Hr|].
  cbn [update_rows] in Hr.
  assert (HX : length x = n) by (apply H; left).
  assert (HR : forall r, r ∈ rows -> length r = n) by (intros; apply H; by right).
  specialize (IH HR).
  destruct (pick x).
  - destruct (assign_all asg x x) as [x'|] eqn:A; [|exact (H r Hr)].
    destruct (fits x'); [|exact (H r Hr)].
    destruct (update_rows fits pick asg rows) as [b rs]. cbn in Hr, IH.
    apply elem_of_cons in Hr. destruct Hr as [->|Hr]; [|auto].
    by rewrite (assign_all_length _ _ _ _ A).
  - destruct (update_rows fits pick asg rows) as [b rs]. cbn in Hr, IH.
    apply elem_of_cons in Hr. destruct Hr as [->|Hr]; auto.
Qed.

Lemma istep_winv cast o w : winv w -> winv (snd (istep cast o w)).
Proof.
  intros W. destruct o as [t cols|fits now t names src|fits now t vals|fits now t rows|fits pick asg t|pick t]; cbn [istep].
  - unfold create_sql. destruct (w_tabs w !! t) eqn:T; [done|]. destruct (fks_exist w cols); [|done].
    intros t' tb' r. cbn [snd w_tabs]. destruct (decide (t = t')) as [->|N].
    + rewrite lookup_insert. intros H. injection H as <-. cbn. intros H. by apply elem_of_nil in H.
    + rewrite lookup_insert_ne by done. apply W.
  - destruct (insert_sql_cases cast fits now t names src w) as [->|(tb & sc & rows & _ & ->)]; [done|].
    by apply insert_loop_winv.
  - by apply txn_insert_winv.
  - by apply bulk_insert_winv.
  - unfold update_sql. destruct (w_tabs w !! t) as [tb|] eqn:T; [|done].
    pose proof (update_rows_length (length (t_cols tb)) fits pick asg (t_rows tb)
      ltac:(intros r Hr; by eapply W)) as U.
    destruct (update_rows fits pick asg (t_rows tb)) as [b rs]. cbn [snd] in U.
    intros t' tb' r. cbn [snd w_tabs]. destruct (decide (t = t')) as [->|N].
    + rewrite lookup_insert. intros H. injection H as <-. cbn. apply U.
    + rewrite lookup_insert_ne by done. apply W.
  - unfold delete_sql. destruct (w_tabs w !! t) as [tb|] eqn:T; [|done].
    intros t' tb' r. cbn [snd w_tabs]. destruct (decide (t = t')) as [->|N].
    + rewrite lookup_insert. intros H. injection H as <-. cbn.
      intros Hr. apply elem_of_list_In, filter_In in Hr. eapply W; [done|].
      apply elem_of_list_In, Hr.
    + rewrite lookup_insert_ne by done. apply W.
Qed.

Lemma istep_kinv cast o w : kinv w -> kinv (snd (istep cast o w)).
Proof.
  intros K. destruct o as [t cols|fits now t names src|fits now t vals|fits now t rows|fits pick asg t|pick t]; cbn [istep].
  - unfold create_sql. destruct (w_tabs w !! t) eqn:T; [done|]. by destruct (fks_exist w cols).
  - destruct (insert_sql_cases cast fits now t names src w) as [->|(tb & sc & rows & _ & ->)]; [done|].
    by apply insert_loop_kinv.
  - by apply txn_insert_kinv.
  - by apply bulk_insert_kinv.
  - unfold update_sql. destruct (w_tabs w !! t) as [tb|] eqn:T; [|done].
    by destruct (update_rows fits pick asg (t_rows tb)) as [b rs].
  - unfold delete_sql. by destruct (w_tabs w !! t) as [tb|] eqn:T.
Qed.

Lemma irun_inv cast (P : World -> Prop) : (forall o w, P w -> P (snd (istep cast o w))) ->
  forall os w, P w -> P (irun cast os w).
Proof.
  intros H os. induction os as [|o os IH]; intros w Hw; [done|]. cbn. apply IH. by apply H.
Qed.

(** ** Keys left to the engine *)
Section Keys.
Context (t : string) (i : nat) (n : string).

Definition pk_ok (w : World) : Prop :=
  forall tb, w_tabs w !! t = Some tb ->
    (exists c, t_cols tb !! i = Some c /\ c_pk c = true /\ c_name c = n)
    /\ (forall r, r ∈ t_rows tb -> exists k, r !! i = Some (mkV TInt (PNum k)) /\ k ∈ w_gen w)
    /\ NoDup (map (fun r : list IVal => r !! i) (t_rows tb)).

Definition pkinv (w : World) : Prop := NoDup (w_gen w) -> pk_ok w.

Lemma pkinv_init : pkinv w_init.
Proof. intros _ tb H. cbn in H. by rewrite lookup_empty in H. Qed.

Lemma pkinv_keys nx ks w : pkinv w -> pkinv (with_keys nx ks w).
Proof.
  intros P N tb T. cbn in *. apply NoDup_app in N. destruct N as (N & _ & _).
  destruct (P N tb T) as (C & R & D). split; [done|]. split; [|done].
  intros r Hr. destruct (R r Hr) as (k & ? & ?). exists k. split; [done|]. apply elem_of_app. by left.
Qed.

Lemma pkinv_add t' row nx ks w :
  (t' = t -> exists k, row !! i = Some (mkV TInt (PNum k)) /\ k ∈ ks) ->
  pkinv w -> pkinv (add_row t' row (with_keys nx ks w)).
Proof.
  intros H P N. unfold add_row in *. cbn [with_keys w_tabs] in *.
  destruct (w_tabs w !! t') as [tb'|] eqn:T; [|by apply (pkinv_keys nx ks w P)].
  intros tb. cbn [w_tabs w_gen] in *. cbn in N.
  destruct (decide (t' = t)) as [->|D].
  - rewrite lookup_insert. intros E. injection E as <-. cbn [t_cols t_rows].
    pose proof N as N0. apply NoDup_app in N. destruct N as (N & DJ & _).
    destruct (P N tb' T) as (C & R & ND). destruct (H eq_refl) as (k & Hk & Kk).
    split; [done|]. split.
    + intros r Hr. apply elem_of_app in Hr. destruct Hr as [Hr|Hr].
      * destruct (R r Hr) as (k' & ? & ?). exists k'. split; [done|]. cbn. apply elem_of_app. by left.
      * apply elem_of_list_singleton in Hr. subst r. exists k. split; [done|]. cbn. apply elem_of_app. by right.
    + rewrite map_app. cbn [map]. apply NoDup_app. split; [done|]. split; [|apply NoDup_singleton].
      intros x Hx X. apply elem_of_list_singleton in X. subst x.
      apply elem_of_list_In, in_map_iff in Hx. destruct Hx as (r & E & Hr).
      apply elem_of_list_In in Hr. destruct (R r Hr) as (k' & A & B).
      assert (k' = k) as -> by congruence. by apply (DJ k).
  - rewrite lookup_insert_ne by done. intros T'.
    apply NoDup_app in N. destruct N as (N & DJ & _). destruct (P N tb T') as (C & R & ND).
    split; [done|]. split; [|done]. intros r Hr. destruct (R r Hr) as (k & ? & ?).
    exists k. split; [done|]. cbn. apply elem_of_app. by left.
Qed.

Definition omits (vals : list IVal) : Prop :=
  match vals !! i with Some g => is_null g = true | None => True end.

Definition pk_col (w : World) : Prop :=
  forall tb, w_tabs w !! t = Some tb ->
    exists c, t_cols tb !! i = Some c /\ c_pk c = true /\ c_name c = n.

Lemma omits_key now cols nx vals row nx' ks :
  (exists c, cols !! i = Some c /\ c_pk c = true /\ c_name c = n) -> omits vals ->
  expand now nx cols vals = (Some row, nx', ks) ->
  exists k, row !! i = Some (mkV TInt (PNum k)) /\ k ∈ ks.
Proof.
  intros (c & Hc & Hp & _) O E. apply expand_spec in E. destruct E as [[L Sp] _].
  destruct (row !! i) as [v|] eqn:V.
  - specialize (Sp i c v Hc V). unfold omits in O. destruct (vals !! i) as [g|].
    + rewrite O, Hp in Sp. cbn in Sp. destruct Sp as (k & -> & ?). by exists k.
    + rewrite Hp in Sp. destruct Sp as (k & -> & ?). by exists k.
  - apply lookup_ge_None in V. apply lookup_lt_Some in Hc. lia.
Qed.

Lemma pk_col_add t' row nx ks w : pk_col w -> pk_col (add_row t' row (with_keys nx ks w)).
Proof.
  intros C tb. unfold add_row. cbn [with_keys w_tabs].
  destruct (w_tabs w !! t') as [tb'|] eqn:T; [|apply C]. cbn [w_tabs].
  destruct (decide (t' = t)) as [->|D].
  - rewrite lookup_insert. intros E. injection E as <-. cbn. by apply C.
  - rewrite lookup_insert_ne by done. apply C.
Qed.

Lemma txn_insert_pkinv fits now t' vals w : (t' = t -> omits vals) ->
  pk_col w -> pkinv w ->
  pkinv (snd (txn_insert_values fits now t' vals w)) /\ pk_col (snd (txn_insert_values fits now t' vals w)).
Proof.
  intros O C P. unfold txn_insert_values. destruct (w_tabs w !! t') as [tb|] eqn:T; [|done].
  destruct (expand now (w_next w) (t_cols tb) vals) as [[r nx] ks] eqn:E.
  destruct r as [row|]; [|split; [by apply pkinv_keys|done]].
  unfold heap_insert_values. cbn [with_keys w_tabs w_next]. rewrite T.
  rewrite (expand_again _ _ _ _ _ _ _ E).
  assert (EW : with_keys nx [] (with_keys nx ks w) = with_keys nx ks w).
  { unfold with_keys. cbn. by rewrite app_nil_r. }
  change (mkW (w_tabs w) nx (w_gen w ++ ks)) with (with_keys nx ks w). rewrite EW.
  destruct (fits row); cbn [snd]; [|split; [by apply pkinv_keys|done]].
  split; [|by apply pk_col_add].
  apply pkinv_add; [|done]. intros ->. eapply omits_key; [|by apply O|exact E]. by apply C.
Qed.

Lemma bulk_insert_pkinv fits now t' rows : (t' = t -> Forall omits rows) -> forall w,
  pk_col w -> pkinv w ->
  pkinv (snd (bulk_insert fits now t' rows w)) /\ pk_col (snd (bulk_insert fits now t' rows w)).
Proof.
  induction rows as [|vals rows IH]; intros O w C P; [done|]. cbn [bulk_insert].
  destruct (w_tabs w !! t') as [tb|] eqn:T; [|done].
  destruct (expand now (w_next w) (t_cols tb) vals) as [[r nx] ks] eqn:E.
  destruct r as [row|]; [|split; [by apply pkinv_keys|done]].
  destruct (fits row); cbn [snd]; [|split; [by apply pkinv_keys|done]].
  apply IH; [intros Et; specialize (O Et); by inversion O|by apply pk_col_add|].
  apply pkinv_add; [|done]. intros ->. specialize (O eq_refl). inversion O; subst.
  eapply omits_key; [|done|exact E]. by apply C.
Qed.

Lemma insert_loop_pkinv cast fits now t' src rows :
  (t' = t -> src <> [] /\ n ∉ map c_name src) -> forall w,
  (t' = t -> forall tb, w_tabs w !! t' = Some tb -> forall d, d ∈ src -> d ∈ t_cols tb) ->
  pk_col w -> pkinv w ->
  pkinv (snd (insert_loop cast fits now t' src rows w)) /\ pk_col (snd (insert_loop cast fits now t' src rows w)).
Proof.
  intros O. induction rows as [|vals rows IH]; intros w S1 C P; [done|]. cbn [insert_loop].
  destruct (w_tabs w !! t') as [tb|] eqn:T; [|done].
  destruct (fk_check _ _ _); [|done].
  assert (OM : t' = t -> omits (map_values cast vals src (t_cols tb))).
  { intros Et. destruct (O Et) as [NE NI]. subst t'. destruct (C tb T) as (c & Hc & Hp & Hn).
    unfold omits. rewrite (map_values_listed cast vals src (t_cols tb) i c NE); [|by apply (S1 eq_refl)|done].
    unfold value_by_name. rewrite Hn. destruct (col_index n src) eqn:X; [|done].
    exfalso. apply NI. destruct (col_index_spec _ _ _ X) as (d & Hd & <-).
    apply elem_of_list_In, in_map, elem_of_list_In. by eapply elem_of_list_lookup_2. }
  pose proof (txn_insert_pkinv fits now t' _ w OM C P) as [P1 C1].
  destruct (txn_insert_values fits now t' (map_values cast vals src (t_cols tb)) w) as [[] w1] eqn:E1; [|done].
  apply IH; [|done|done]. intros Et tb1 T1 d Hd.
  destruct (txn_insert_true _ _ _ _ _ _ E1) as (tb0 & row & nx & ks & T0 & X & F & ->).
  assert (tb0 = tb) as -> by congruence.
  rewrite (add_row_tabs t' row (with_keys nx ks w) tb T) in T1. rewrite lookup_insert in T1.
  injection T1 as <-. cbn. by apply (S1 Et).
Qed.

Lemma assign_all_keeps asg old : i ∉ map fst asg -> forall row row',
  assign_all asg old row = Some row' -> row' !! i = row !! i.
Proof.
  induction asg as [|[j f] rest IH]; intros N row row' E; cbn [assign_all] in E; [congruence|].
  cbn [map fst] in N. apply not_elem_of_cons in N. destruct N as [N1 N2].
  destruct (j <? length row)%nat; [|done]. destruct (f old); [|done].
  rewrite (IH N2 _ _ E). by rewrite list_lookup_insert_ne.
Qed.

Lemma update_rows_keeps fits pick asg rows : i ∉ map fst asg ->
  map (fun r : list IVal => r !! i) (snd (update_rows fits pick asg rows))
  = map (fun r : list IVal => r !! i) rows.
Proof.
  intros N. induction rows as [|x rows IH]; [done|]. cbn [update_rows].
  destruct (pick x).
  - destruct (assign_all asg x x) as [x'|] eqn:A; [|done]. destruct (fits x'); [|done].
    destruct (update_rows fits pick asg rows) as [b rs]. cbn [snd map] in *.
    rewrite IH. f_equal. by eapply assign_all_keeps.
  - destruct (update_rows fits pick asg rows) as [b rs]. cbn [snd map] in *. by rewrite IH.
Qed.
End Keys.

(** The operations leave the key column [i], named [n], of table [t] to the engine. *)
Definition key_left (t : string) (i : nat) (n : string) (o : IOp) : Prop :=
  match o with
  | OCreate t' cols => t' = t -> exists c, cols !! i = Some c /\ c_pk c = true /\ c_name c = n
  | OInsert _ _ t' names src => t' = t -> names <> [] /\ n ∉ names /\ exists rows, src = SVals rows
  | OValues _ _ t' vals => t' = t -> omits i vals
  | OBulk _ _ t' rows => t' = t -> Forall (omits i) rows
  | OUpdate _ _ asg t' => t' = t -> i ∉ map fst asg
  | ODelete _ _ => True
  end.

Lemma istep_pkinv cast t i n o w : key_left t i n o -> pk_col t i n w -> pkinv t i n w ->
  pkinv t i n (snd (istep cast o w)) /\ pk_col t i n (snd (istep cast o w)).
Proof.
  intros H C P. destruct o as [t' cols|fits now t' names src|fits now t' vals|fits now t' rows|fits pick asg t'|pick t']; cbn [istep key_left] in *.
  - unfold create_sql. destruct (w_tabs w !! t') eqn:T; [done|]. destruct (fks_exist w cols); [|done].
    cbn [snd]. split.
    + intros N tb. cbn [w_tabs w_gen] in *. destruct (decide (t' = t)) as [->|D].
      * rewrite lookup_insert. intros E. injection E as <-. cbn. split; [by apply H|]. split; [|constructor].
        intros r Hr. by apply elem_of_nil in Hr.
      * rewrite lookup_insert_ne by done. by apply P.
    + intros tb. cbn [w_tabs]. destruct (decide (t' = t)) as [->|D].
      * rewrite lookup_insert. intros E. injection E as <-. cbn. by apply H.
      * rewrite lookup_insert_ne by done. by apply C.
  - unfold insert_sql. destruct (w_tabs w !! t') as [tb|] eqn:T; [|done].
    destruct (decide (t' = t)) as [->|D].
    + destruct (H eq_refl) as (NE & NI & rows & ->).
      assert (EL : match names with [] => Some (t_cols tb) | _ :: _ => listed names (t_cols tb) end
                   = listed names (t_cols tb)) by (by destruct names).
      rewrite EL. clear EL. destruct (listed names (t_cols tb)) as [vs|] eqn:L; [|done].
      destruct (forallb _ rows); [|done]. destruct (eval_rows cast vs rows) as [ev|]; [|done].
      destruct (listed_spec _ _ _ L) as [M S1].
      apply insert_loop_pkinv; [|..|done|done].
      * intros _. rewrite M. split; [|done]. intros ->. by destruct names.
      * intros _ tb' T' d Hd. assert (tb' = tb) as -> by congruence. auto.
    + destruct (match names with [] => Some (t_cols tb) | _ :: _ => listed names (t_cols tb) end) as [vs|];
        [|done].
      destruct src as [rows|sc rows].
      * destruct (forallb _ rows); [|done]. destruct (eval_rows cast vs rows) as [ev|]; [|done].
        by apply insert_loop_pkinv.
      * case_bool_decide; [|done]. destruct (forallb _ rows); [|done]. by apply insert_loop_pkinv.
  - by apply txn_insert_pkinv.
  - by apply bulk_insert_pkinv.
  - unfold update_sql. destruct (w_tabs w !! t') as [tb|] eqn:T; [|done].
    assert (UK : t' = t -> map (fun r : list IVal => r !! i) (snd (update_rows fits pick asg (t_rows tb)))
                 = map (fun r : list IVal => r !! i) (t_rows tb)).
    { intros E. apply update_rows_keeps. auto. }
    destruct (update_rows fits pick asg (t_rows tb)) as [b rs]. cbn [snd] in *. split.
    + intros N tb'. cbn [w_tabs w_gen] in *. destruct (decide (t' = t)) as [->|D].
      * rewrite lookup_insert. intros E. injection E as <-. cbn [t_cols t_rows].
        destruct (P N tb T) as (C1 & R & ND). split; [done|]. split.
        -- intros r Hr. assert (X : r !! i ∈ map (fun r : list IVal => r !! i) rs).
           { apply elem_of_list_In. apply (in_map (fun r : list IVal => r !! i)). by apply elem_of_list_In. }
           rewrite (UK eq_refl) in X. apply elem_of_list_In, in_map_iff in X.
           destruct X as (r0 & E0 & H0). apply elem_of_list_In in H0.
           destruct (R r0 H0) as (k & ? & ?). exists k. split; [congruence|done].
        -- by rewrite (UK eq_refl).
      * rewrite lookup_insert_ne by done. by apply P.
    + intros tb'. cbn [w_tabs]. destruct (decide (t' = t)) as [->|D].
      * rewrite lookup_insert. intros E. injection E as <-. cbn. by apply C.
      * rewrite lookup_insert_ne by done. by apply C.
  - unfold delete_sql. destruct (w_tabs w !! t') as [tb|] eqn:T; [|done]. cbn [snd]. split.
    + intros N tb'. cbn [w_tabs w_gen] in *. destruct (decide (t' = t)) as [->|D].
      * rewrite lookup_insert. intros E. injection E as <-. cbn [t_cols t_rows].
        destruct (P N tb T) as (C1 & R & ND). split; [done|]. split.
        -- intros r Hr. apply elem_of_list_In, filter_In in Hr. apply R. apply elem_of_list_In, Hr.
        -- clear -ND. induction (t_rows tb) as [|x rows IH]; [done|]. cbn [map List.filter] in *.
           inversion ND as [|? ? N1 N2]; subst. destruct (negb (pick x)); [|auto]. cbn [map].
           constructor; [|auto]. intros X. apply N1. apply elem_of_list_In, in_map_iff in X.
           destruct X as (r & E & Hr). apply filter_In in Hr. rewrite <- E.
           apply elem_of_list_In. apply (in_map (fun r : list IVal => r !! i)). apply Hr.
      * rewrite lookup_insert_ne by done. by apply P.
    + intros tb'. cbn [w_tabs]. destruct (decide (t' = t)) as [->|D].
      * rewrite lookup_insert. intros E. injection E as <-. cbn. by apply C.
      * rewrite lookup_insert_ne by done. by apply C.
Qed.

Lemma irun_pkinv cast t i n os : Forall (key_left t i n) os -> forall w,
  pk_col t i n w -> pkinv t i n w -> pkinv t i n (irun cast os w).
Proof.
  induction os as [|o os IH]; intros F w C P; [done|]. inversion F; subst. cbn.
  destruct (istep_pkinv cast t i n o w) as [P1 C1]; try done. by apply IH.
Qed.
