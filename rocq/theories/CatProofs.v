(** * Proofs about the catalog *)
From stdpp Require Import strings gmap list.
From Coq Require Import NArith Lia.
From Verif Require Import CatModel CatSpec PageModel.
Local Open Scope N_scope.

Record dbok (d : db) : Prop := {
  ok_name : forall n o, d_names d !! n = Some o -> exists i, d_tables d !! o = Some i /\ t_name i = n;
  ok_tab : forall o i, d_tables d !! o = Some i -> o < d_next d /\ 5 <= o /\ d_names d !! t_name i = Some o /\ t_oid i = o;
  ok_iname : forall n o, d_inames d !! n = Some o -> exists i, d_indexes d !! o = Some i /\ i_name i = n;
  ok_ix : forall o i, d_indexes d !! o = Some i -> o < d_inext d /\ d_inames d !! i_name i = Some o /\ i_oid i = o /\ is_Some (d_names d !! i_table i) }.

Lemma dbok_new : dbok new_db.
Proof. split; cbn; intros *; rewrite lookup_empty; discriminate. Qed.

Lemma db_table_spec d n i : dbok d -> db_table d n = Some i <-> d_names d !! n = Some (t_oid i) /\ d_tables d !! t_oid i = Some i /\ t_name i = n.
Proof.
  intros H. unfold db_table. split.
  - destruct (d_names d !! n) as [o|] eqn:E; [|discriminate]. intros Hi.
    destruct (ok_name _ H _ _ E) as (i' & E1 & E2). rewrite E1 in Hi. injection Hi as <-.
    destruct (ok_tab _ H _ _ E1) as (_ & _ & _ & ->). auto.
  - intros (-> & E & _). exact E.
Qed.

Lemma db_table_none d n : dbok d -> db_table d n = None <-> d_names d !! n = None.
Proof.
  intros H. unfold db_table. destruct (d_names d !! n) as [o|] eqn:E; [|tauto].
  destruct (ok_name _ H _ _ E) as (i & -> & _). split; discriminate.
Qed.

Lemma has_column_spec sc c : has_column sc c = true <-> exists x, In x sc /\ c_name x = c.
Proof.
  unfold has_column. rewrite existsb_exists. split; intros (x & H1 & H2); exists x; (split; [exact H1|]).
  - by apply bool_decide_eq_true in H2.
  - by apply bool_decide_eq_true.
Qed.

(** ** Creating tables and indexes *)
Lemma create_table_spec n sc p d i d2 : dbok d -> db_create_table n sc p d = Some (i, d2) ->
  d_names d !! n = None /\ fks_ok d sc = true /\ i = TInfo n (d_next d) sc p p /\
  d2 = Db (<[d_next d := i]> (d_tables d)) (<[n := d_next d]> (d_names d)) (d_next d + 1) (d_indexes d) (d_inames d) (d_inext d).
Proof.
  intros H. unfold db_create_table. destruct (d_names d !! n); [discriminate|]. destruct (fks_ok d sc); [|discriminate].
  intros [= <- <-]. auto.
Qed.

Lemma next_free d : dbok d -> d_tables d !! d_next d = None.
Proof. intros H. destruct (d_tables d !! d_next d) as [i|] eqn:E; [|done]. apply (ok_tab _ H) in E as (E & _). lia. Qed.

Lemma inext_free d : dbok d -> d_indexes d !! d_inext d = None.
Proof. intros H. destruct (d_indexes d !! d_inext d) as [i|] eqn:E; [|done]. apply (ok_ix _ H) in E as (E & _). lia. Qed.

Lemma create_table_ok n sc p d i d2 : dbok d -> 5 <= d_next d -> db_create_table n sc p d = Some (i, d2) -> dbok d2 /\ 5 <= d_next d2.
Proof.
  intros H H5 E. destruct (create_table_spec _ _ _ _ _ _ H E) as (E1 & _ & -> & ->). split; [|cbn; lia].
  split; cbn [d_tables d_names d_next d_indexes d_inames d_inext].
  - intros m o. destruct (decide (m = n)) as [->|Hm].
    + rewrite lookup_insert. intros [= <-]. eexists. rewrite lookup_insert. by split.
    + rewrite lookup_insert_ne by done. intros Ho. destruct (ok_name _ H _ _ Ho) as (j & Ej & Hj). exists j. split; [|done].
      rewrite lookup_insert_ne; [done|]. apply (ok_tab _ H) in Ej. lia.
  - intros o j. destruct (decide (o = d_next d)) as [->|Ho].
    + rewrite lookup_insert. intros [= <-]. cbn. rewrite lookup_insert. repeat split; lia.
    + rewrite lookup_insert_ne by done. intros Hj. destruct (ok_tab _ H _ _ Hj) as (A & B & C & D). repeat split; try lia.
      rewrite lookup_insert_ne; [done|]. intros ->. congruence.
  - apply (ok_iname _ H).
  - intros o j Hj. destruct (ok_ix _ H _ _ Hj) as (A & B & C & D). repeat split; try done.
    destruct (decide (i_table j = n)) as [<-|]; [by rewrite lookup_insert|]. by rewrite lookup_insert_ne.
Qed.

Lemma create_table_lookup n sc p d i d2 m : dbok d -> db_create_table n sc p d = Some (i, d2) ->
  db_table d2 m = if decide (m = n) then Some i else db_table d m.
Proof.
  intros H E. destruct (create_table_spec _ _ _ _ _ _ H E) as (E1 & _ & -> & ->). unfold db_table. cbn.
  destruct (decide (m = n)) as [->|Hm]; [by rewrite !lookup_insert|]. rewrite lookup_insert_ne by done.
  destruct (d_names d !! m) as [o|] eqn:Eo; [|done]. rewrite lookup_insert_ne; [done|].
  destruct (ok_name _ H _ _ Eo) as (j & Ej & _). apply (ok_tab _ H) in Ej. lia.
Qed.

Lemma create_index_spec n t a u d i d2 : db_create_index n t a u d = Some (i, d2) ->
  is_Some (d_names d !! t) /\ d_inames d !! n = None /\ i = IInfo n (d_inext d) t a u /\
  db_add_index i d2 = Db (d_tables d) (d_names d) (d_next d) (<[d_inext d := i]> (d_indexes d)) (<[n := d_inext d]> (d_inames d)) (d_inext d + 1).
Proof.
  unfold db_create_index. destruct (d_names d !! t) eqn:E1; [|discriminate]. destruct (d_inames d !! n) eqn:E2; [discriminate|].
  intros [= <- <-]. split; [by eexists|]. split; [done|]. split; [done|]. unfold db_add_index. cbn. by rewrite insert_insert.
Qed.

Lemma create_index_ok n t a u d i d2 : dbok d -> db_create_index n t a u d = Some (i, d2) -> dbok (db_add_index i d2).
Proof.
  intros H E. destruct (create_index_spec _ _ _ _ _ _ _ E) as (Ht & Hn & -> & ->).
  split; cbn [d_tables d_names d_next d_indexes d_inames d_inext]; [apply (ok_name _ H)|apply (ok_tab _ H)| |].
  - intros m o. destruct (decide (m = n)) as [->|Hm].
    + rewrite lookup_insert. intros [= <-]. eexists. rewrite lookup_insert. by split.
    + rewrite lookup_insert_ne by done. intros Ho. destruct (ok_iname _ H _ _ Ho) as (j & Ej & Hj). exists j. split; [|done].
      rewrite lookup_insert_ne; [done|]. apply (ok_ix _ H) in Ej. lia.
  - intros o j. destruct (decide (o = d_inext d)) as [->|Ho].
    + rewrite lookup_insert. intros [= <-]. cbn. rewrite lookup_insert. repeat split; [lia|done].
    + rewrite lookup_insert_ne by done. intros Hj. destruct (ok_ix _ H _ _ Hj) as (A & B & C & D). repeat split; try lia; [|done].
      rewrite lookup_insert_ne; [done|]. intros ->. congruence.
Qed.

(** ** One database against its specification *)
Record rep (d : db) (s : sdb) : Prop := {
  rp_ok : dbok d;
  rp_five : 5 <= d_next d;
  rp_tab : forall n, option_map t_schema (db_table d n) = s_tables s !! n;
  rp_ix : forall n t a u, s_indexes s !! n = Some (t, a, u) <-> exists o, d_indexes d !! o = Some (IInfo n o t a u) }.

Lemma rep_new : rep new_db (SDb ∅ ∅).
Proof.
  split; [apply dbok_new|vm_compute; discriminate|..].
  - intros n. reflexivity.
  - intros. cbn. rewrite lookup_empty. split; [discriminate|]. intros (o & Ho). by rewrite lookup_empty in Ho.
Qed.

Lemma rep_names d s n : rep d s -> d_names d !! n = None <-> s_tables s !! n = None.
Proof.
  intros H. rewrite <- (rp_tab _ _ H). rewrite <- (db_table_none _ _ (rp_ok _ _ H)). destruct (db_table d n); cbn; split; congruence.
Qed.

Lemma rep_inames d s n : rep d s -> d_inames d !! n = None <-> s_indexes s !! n = None.
Proof.
  intros H. split.
  - intros E. destruct (s_indexes s !! n) as [[[t a] u]|] eqn:E2; [|done].
    apply (rp_ix _ _ H) in E2 as (o & Ho). apply (ok_ix _ (rp_ok _ _ H)) in Ho as (_ & Ho & _). cbn in Ho. congruence.
  - intros E. destruct (d_inames d !! n) as [o|] eqn:E2; [|done].
    destruct (ok_iname _ (rp_ok _ _ H) _ _ E2) as (i & Hi & Hn). destruct (ok_ix _ (rp_ok _ _ H) _ _ Hi) as (_ & _ & Ho & _).
    destruct i as [nm o' t a u]. cbn in Hn, Ho. subst nm o'.
    assert (s_indexes s !! n = Some (t, a, u)) by (apply (rp_ix _ _ H); eauto). congruence.
Qed.

Lemma may_create_spec d s n sc : rep d s ->
  (d_names d !! n = None /\ fks_ok d sc = true) <-> may_create s n sc.
Proof.
  intros H. unfold may_create. rewrite (rep_names _ _ n H). unfold fks_ok. rewrite forallb_forall. split.
  - intros [Hn F]. split; [done|]. intros c t x Hc Hf. specialize (F c Hc). rewrite Hf in F.
    destruct (d_names d !! t) eqn:E1; [|discriminate]. destruct (db_table d t) as [i|] eqn:E2; [|discriminate].
    apply has_column_spec in F as (c2 & F1 & F2). exists (t_schema i), c2. split; [|done].
    rewrite <- (rp_tab _ _ H), E2. reflexivity.
  - intros [Hn F]. split; [done|]. intros c Hc. destruct (c_fk c) as [[t x]|] eqn:Hf; [|done].
    destruct (F c t x Hc Hf) as (sc2 & c2 & E1 & E2 & E3). rewrite <- (rp_tab _ _ H) in E1.
    destruct (db_table d t) as [i|] eqn:Ei; [|discriminate]. cbn in E1. injection E1 as <-.
    destruct (d_names d !! t) eqn:En.
    + apply has_column_spec. eauto.
    + apply (db_table_none _ _ (rp_ok _ _ H)) in En. congruence.
Qed.

(** ** Worlds *)
Record wrep (w : world) (s : spec) : Prop := {
  wr_cur : w_cur w = s_cur s;
  wr_in : is_Some (w_dbs w !! w_cur w);
  wr_dbs : forall n, match w_dbs w !! n, s_dbs s !! n with Some d, Some x => rep d x | None, None => True | _, _ => False end }.

Lemma wr_some w s n d : wrep w s -> w_dbs w !! n = Some d -> exists x, s_dbs s !! n = Some x /\ rep d x.
Proof. intros H E. pose proof (wr_dbs _ _ H n) as R. rewrite E in R. destruct (s_dbs s !! n); [eauto|done]. Qed.

Lemma wr_none w s n : wrep w s -> w_dbs w !! n = None <-> s_dbs s !! n = None.
Proof. intros H. pose proof (wr_dbs _ _ H n) as R. destruct (w_dbs w !! n), (s_dbs s !! n); try done; tauto. Qed.

Lemma wrep_insert w s n d x w2 s2 : wrep w s -> rep d x ->
  w_dbs w2 = <[n := d]> (w_dbs w) -> s_dbs s2 = <[n := x]> (s_dbs s) -> w_cur w2 = w_cur w -> s_cur s2 = s_cur s -> wrep w2 s2.
Proof.
  intros H R E1 E2 E3 E4. split.
  - rewrite E3, E4. apply H.
  - rewrite E1, E3. destruct (decide (n = w_cur w)) as [->|]; [by rewrite lookup_insert|]. rewrite lookup_insert_ne by done. apply H.
  - intros m. rewrite E1, E2. destruct (decide (n = m)) as [->|]; [by rewrite !lookup_insert|]. rewrite !lookup_insert_ne by done. apply H.
Qed.

Lemma step_ok o w s b w2 : wrep w s -> step o w = (b, w2) -> exists s2, sstep o s b s2 /\ wrep w2 s2.
Proof.
  intros H. destruct o as [n|n|n sc room stored|n t attrs u stored]; cbn [step sstep].
  - destruct (w_dbs w !! n) as [d|] eqn:E; intros [= <- <-].
    + exists s. split; [|done]. right. split; [|done]. intros E2. apply (wr_none _ _ n H) in E2. congruence.
    + eexists. split; [left; split; [by apply (wr_none _ _ n H)|done]|].
      eapply (wrep_insert w s n new_db (SDb ∅ ∅)); [done|apply rep_new|done..].
  - destruct (w_dbs w !! n) as [d|] eqn:E; intros [= <- <-].
    + eexists. split; [left; split; [|done]|].
      * destruct (wr_some _ _ _ _ H E) as (x & -> & _). by eexists.
      * split; cbn; [done|by rewrite E|apply H].
    + exists s. split; [|done]. right. split; [|done]. apply (wr_none _ _ n H) in E. rewrite E. intros []; done.
  - destruct (wr_in _ _ H) as [d Ed]. rewrite Ed. destruct (wr_some _ _ _ _ H Ed) as (x & Ex & R).
    destruct (new_heap_page room w) as [p next] eqn:Ep.
    destruct (db_create_table n sc p d) as [[i d2]|] eqn:Ec; intros [= <- <-].
    + destruct (create_table_spec _ _ _ _ _ _ (rp_ok _ _ R) Ec) as (C1 & C2 & C3 & C4).
      eexists. split.
      * exists x. split; [by rewrite <- (wr_cur _ _ H)|]. left. split; [by apply (may_create_spec d)|]. split; reflexivity.
      * destruct (create_table_ok _ _ _ _ _ _ (rp_ok _ _ R) (rp_five _ _ R) Ec) as [O1 O2].
        eapply (wrep_insert w s (w_cur w) d2 (SDb (<[n := sc]> (s_tables x)) (s_indexes x))); [done| |done|cbn; by rewrite <- (wr_cur _ _ H)|done|done].
        split; [done|done|..]; cbn [s_tables s_indexes].
        -- intros m. rewrite (create_table_lookup _ _ _ _ _ _ m (rp_ok _ _ R) Ec). destruct (decide (m = n)) as [->|].
           ++ rewrite lookup_insert. subst i. reflexivity.
           ++ rewrite lookup_insert_ne by done. apply (rp_tab _ _ R).
        -- intros m t a u. subst d2. cbn. apply (rp_ix _ _ R).
    + exists s. split; [|done]. exists x. split; [by rewrite <- (wr_cur _ _ H)|]. right. split; [|done].
      intros M. apply (may_create_spec d) in M as [M1 M2]; [|done]. unfold db_create_table in Ec. rewrite M1, M2 in Ec. discriminate.
  - destruct (wr_in _ _ H) as [d Ed]. rewrite Ed. destruct (wr_some _ _ _ _ H Ed) as (x & Ex & R).
    destruct (db_create_index n t attrs u d) as [[i d2]|] eqn:Ec; intros [= <- <-].
    + destruct (create_index_spec _ _ _ _ _ _ _ Ec) as (C1 & C2 & C3 & C4).
      pose proof (create_index_ok _ _ _ _ _ _ _ (rp_ok _ _ R) Ec) as O.
      assert (Ht : is_Some (s_tables x !! t)).
      { apply not_eq_None_Some. rewrite <- (rep_names d x t R). intros E0. rewrite E0 in C1. by destruct C1. }
      eexists. split.
      * exists x. split; [by rewrite <- (wr_cur _ _ H)|]. left. split; [|split; reflexivity]. split; [by apply (rep_inames d x n R)|done].
      * eapply (wrep_insert w s (w_cur w) (db_add_index i d2) (SDb (s_tables x) (<[n := (t, attrs, u)]> (s_indexes x)))); [done| |done|cbn; by rewrite <- (wr_cur _ _ H)|done|done].
        rewrite C4 in O |- *. split; [done|apply R|..]; cbn [s_tables s_indexes d_indexes].
        -- intros m. apply (rp_tab _ _ R).
        -- intros m t2 a u2. destruct (decide (m = n)) as [->|Hm].
           ++ rewrite lookup_insert. split.
              ** intros [= <- <- <-]. exists (d_inext d). rewrite lookup_insert. by subst i.
              ** intros (o & Ho). destruct (decide (o = d_inext d)) as [->|Hne].
                 { rewrite lookup_insert in Ho. subst i. by injection Ho as -> -> ->. }
                 rewrite lookup_insert_ne in Ho by done. apply (ok_ix _ (rp_ok _ _ R)) in Ho as (_ & Ho & _). cbn in Ho. congruence.
           ++ rewrite lookup_insert_ne by done. rewrite (rp_ix _ _ R). split; intros (o & Ho); exists o.
              ** rewrite lookup_insert_ne; [done|]. apply (ok_ix _ (rp_ok _ _ R)) in Ho. lia.
              ** destruct (decide (o = d_inext d)) as [->|Hne]; [|by rewrite lookup_insert_ne in Ho by done].
                 rewrite lookup_insert in Ho. subst i. injection Ho as E. congruence.
    + exists s. split; [|done]. exists x. split; [by rewrite <- (wr_cur _ _ H)|]. right. split; [|done].
      intros [M1 M2]. unfold db_create_index in Ec. apply (rep_inames d x n R) in M1. rewrite M1 in Ec.
      destruct (d_names d !! t) eqn:E0; [discriminate|]. apply (rep_names d x t R) in E0. rewrite E0 in M2. by destruct M2.
Qed.

Lemma run_ok ops : forall w s bs w2, wrep w s -> run ops w = (bs, w2) -> exists s2, srun ops s bs s2 /\ wrep w2 s2.
Proof.
  induction ops as [|o ops IH]; intros w s bs w2 H; cbn [run].
  - intros [= <- <-]. exists s. split; [constructor|done].
  - destruct (step o w) as [b w1] eqn:E. destruct (run ops w1) as [bs' w'] eqn:E2. intros [= <- <-].
    destruct (step_ok _ _ _ _ _ H E) as (s1 & S1 & H1). destruct (IH _ _ _ _ H1 E2) as (s2 & S2 & H2).
    exists s2. split; [|done]. econstructor; eauto.
Qed.

Lemma boot_none : boot None = W {[ "default"%string := new_db ]} "default"%string [] [] ∅ 4 None.
Proof.
  unfold boot, rebuild. cbn [w_dbs w_cur w_rows w_irows w_heaps w_page w_snap user_rows List.filter app map db_load fold_left].
  f_equal. unfold singletonM, map_singleton. rewrite alter_insert. reflexivity.
Qed.

Lemma wrep_boot : wrep (boot None) spec0.
Proof.
  rewrite boot_none. split; cbn [w_cur w_dbs s_cur s_dbs spec0].
  - reflexivity.
  - rewrite lookup_singleton. by eexists.
  - intros n. destruct (decide ("default"%string = n)) as [<-|Hn].
    + rewrite !lookup_singleton. apply rep_new.
    + by rewrite !lookup_singleton_ne.
Qed.

(** ** Tables stay *)
Lemma db_table_step_table n sc p d i d2 m j : dbok d -> db_create_table n sc p d = Some (i, d2) -> db_table d m = Some j -> db_table d2 m = Some j.
Proof.
  intros H E Hj. rewrite (create_table_lookup _ _ _ _ _ _ m H E). destruct (decide (m = n)) as [->|]; [|done].
  destruct (create_table_spec _ _ _ _ _ _ H E) as (E1 & _). apply (db_table_none _ _ H) in E1. congruence.
Qed.

Lemma step_keeps o w s d n i : wrep w s -> table_in w d n = Some i -> table_in (step o w).2 d n = Some i.
Proof.
  intros H. unfold table_in. intros E. destruct (w_dbs w !! d) as [x|] eqn:Ex; [|discriminate].
  destruct o as [m|m|m sc room stored|m t attrs u stored]; cbn [step].
  - destruct (w_dbs w !! m) eqn:Em; cbn [snd w_dbs]; [by rewrite Ex|].
    rewrite lookup_insert_ne by congruence. by rewrite Ex.
  - destruct (w_dbs w !! m) eqn:Em; cbn [snd w_dbs]; by rewrite Ex.
  - destruct (wr_in _ _ H) as [y Ey]. rewrite Ey. destruct (new_heap_page room w) as [p next].
    destruct (db_create_table m sc p y) as [[j y2]|] eqn:Ec; cbn [snd w_dbs]; [|by rewrite Ex].
    destruct (wr_some _ _ _ _ H Ey) as (z & _ & R).
    destruct (decide (w_cur w = d)) as [<-|]; [rewrite lookup_insert|by rewrite lookup_insert_ne, Ex].
    assert (y = x) by congruence. subst y. eapply db_table_step_table; [apply R|done|done].
  - destruct (wr_in _ _ H) as [y Ey]. rewrite Ey. destruct (db_create_index m t attrs u y) as [[j y2]|] eqn:Ec; cbn [snd w_dbs]; [|by rewrite Ex].
    destruct (decide (w_cur w = d)) as [<-|]; [rewrite lookup_insert|by rewrite lookup_insert_ne, Ex].
    assert (y = x) by congruence. subst y. destruct (create_index_spec _ _ _ _ _ _ _ Ec) as (_ & _ & _ & ->). exact E.
Qed.

Lemma run_keeps ops : forall w s d n i, wrep w s -> table_in w d n = Some i -> table_in (run ops w).2 d n = Some i.
Proof.
  induction ops as [|o ops IH]; intros w s d n i H E; cbn [run]; [done|].
  destruct (step o w) as [b w1] eqn:E1. destruct (run ops w1) as [bs w2] eqn:E2. cbn [snd].
  destruct (step_ok _ _ _ _ _ H E1) as (s1 & _ & H1).
  change w2 with (bs, w2).2. rewrite <- E2. eapply IH; [exact H1|].
  replace w1 with (step o w).2 by (by rewrite E1). by eapply step_keeps.
Qed.

Lemma run_app a : forall w b, run (a ++ b) w = ((run a w).1 ++ (run b (run a w).2).1, (run b (run a w).2).2).
Proof.
  induction a as [|o a IH]; intros w b; cbn [run app].
  - cbn [fst snd app]. by destruct (run b w).
  - destruct (step o w) as [x w1]. rewrite IH. destruct (run a w1) as [xs w2]. cbn [fst snd]. reflexivity.
Qed.

(** ** Pages and the transaction manager *)
Definition pages_ok (w : world) : Prop :=
  (forall d n i, table_in w d n = Some i -> t_last i = t_first i /\ (t_first i = no_page \/ 4 <= t_first i < w_page w)) /\
  (forall d n i d' n' i', table_in w d n = Some i -> table_in w d' n' = Some i' -> t_first i <> no_page -> t_first i = t_first i' -> d = d' /\ n = n') /\
  4 <= w_page w.

Lemma table_in_step o w s d n i : wrep w s -> table_in (step o w).2 d n = Some i ->
  table_in w d n = Some i \/
  exists sc room stored, o = OTable n sc room stored /\ (step o w).1 = true /\ table_in w d n = None /\ d = w_cur w /\ t_name i = n /\
     t_first i = (new_heap_page room w).1 /\ t_last i = t_first i /\ w_page (step o w).2 = (new_heap_page room w).2 /\ t_schema i = sc.
Proof.
  intros H. unfold table_in at 1 2. destruct o as [m|m|m sc room stored|m t attrs u stored]; cbn [step].
  - destruct (w_dbs w !! m) eqn:Em; cbn [snd w_dbs]; [by left|].
    destruct (decide (m = d)) as [->|]; [rewrite lookup_insert|rewrite lookup_insert_ne by done; by left]. discriminate.
  - destruct (w_dbs w !! m) eqn:Em; cbn [snd w_dbs]; by left.
  - destruct (wr_in _ _ H) as [y Ey]. rewrite Ey. destruct (new_heap_page room w) as [p next] eqn:Ep.
    destruct (db_create_table m sc p y) as [[j y2]|] eqn:Ec; cbn [snd fst w_dbs]; [|by left].
    destruct (wr_some _ _ _ _ H Ey) as (z & _ & R).
    destruct (decide (w_cur w = d)) as [<-|]; [rewrite lookup_insert|rewrite lookup_insert_ne by done; by left].
    rewrite (create_table_lookup _ _ _ _ _ _ n (rp_ok _ _ R) Ec). destruct (decide (n = m)) as [->|]; [|rewrite Ey; by left].
    intros [= <-]. destruct (create_table_spec _ _ _ _ _ _ (rp_ok _ _ R) Ec) as (E1 & _ & -> & _).
    right. exists sc, room, stored. unfold table_in. rewrite Ep, Ey. cbn. apply (db_table_none _ _ (rp_ok _ _ R)) in E1. auto 10.
  - destruct (wr_in _ _ H) as [y Ey]. rewrite Ey. destruct (db_create_index m t attrs u y) as [[j y2]|] eqn:Ec; cbn [snd w_dbs]; [|by left].
    destruct (create_index_spec _ _ _ _ _ _ _ Ec) as (_ & _ & _ & ->).
    destruct (decide (w_cur w = d)) as [<-|]; [rewrite lookup_insert|rewrite lookup_insert_ne by done; by left]. rewrite Ey. by left.
Qed.

Lemma step_page o w : w_page w <= w_page (step o w).2.
Proof.
  destruct o as [m|m|m sc room stored|m t attrs u stored]; cbn [step].
  - destruct (w_dbs w !! m); cbn; lia.
  - destruct (w_dbs w !! m); cbn; lia.
  - destruct (w_dbs w !! w_cur w); [|cbn; lia]. unfold new_heap_page. destruct room.
    + destruct (db_create_table m sc (w_page w) d) as [[]|]; cbn; lia.
    + destruct (db_create_table m sc no_page d) as [[]|]; cbn; lia.
  - destruct (w_dbs w !! w_cur w); [|cbn; lia]. destruct (db_create_index m t attrs u d) as [[]|]; cbn; lia.
Qed.

Lemma pages_step o w s : wrep w s -> pages_ok w -> pages_ok (step o w).2.
Proof.
  intros H (P1 & P2 & P3). pose proof (step_page o w) as Hp.
  split; [|split; [|lia]].
  - intros d n i Hi. destruct (table_in_step _ _ _ _ _ _ H Hi) as [Hi'|(sc & room & stored & _ & _ & _ & _ & _ & E1 & E2 & E3 & _)].
    + destruct (P1 _ _ _ Hi') as [Q1 Q2]. split; [done|]. destruct Q2; [auto|right; lia].
    + split; [done|]. rewrite E1, E3. unfold new_heap_page. destruct room; cbn; [right; lia|by left].
  - intros d n i d' n' i' Hi Hi' Hn He.
    destruct (table_in_step _ _ _ _ _ _ H Hi) as [Hi0|(sc & room & stored & O1 & _ & _ & D1 & _ & E1 & _)];
    destruct (table_in_step _ _ _ _ _ _ H Hi') as [Hi0'|(sc' & room' & stored' & O2 & _ & _ & D2 & _ & E1' & _)].
    + eapply P2; eauto.
    + exfalso. destruct (P1 _ _ _ Hi0) as [_ [Q|Q]]; [done|]. unfold new_heap_page in E1'. destruct room'; cbn [fst] in E1'; [lia|congruence].
    + exfalso. destruct (P1 _ _ _ Hi0') as [_ [Q|Q]]; [congruence|]. unfold new_heap_page in E1. destruct room; cbn [fst] in E1; [lia|congruence].
    + split; [congruence|]. rewrite O1 in O2. by injection O2.
Qed.

Lemma pages_run ops : forall w s, wrep w s -> pages_ok w -> pages_ok (run ops w).2.
Proof.
  induction ops as [|o ops IH]; intros w s H P; cbn [run]; [done|].
  pose proof (pages_step o w s H P) as P1. destruct (step o w) as [b w1] eqn:E1.
  destruct (step_ok _ _ _ _ _ H E1) as (s1 & _ & H1). pose proof (IH _ _ H1 P1) as P2.
  destruct (run ops w1) as [bs w2]. exact P2.
Qed.

Lemma pages_boot : pages_ok (boot None).
Proof.
  assert (E : forall d n, table_in (boot None) d n = None).
  { intros d n. unfold table_in. rewrite boot_none. cbn [w_dbs]. destruct (decide ("default"%string = d)) as [<-|].
    - by rewrite lookup_singleton.
    - by rewrite lookup_singleton_ne. }
  split; [|split]; [intros *; rewrite E; discriminate|intros *; rewrite E; discriminate|]. rewrite boot_none. cbn. lia.
Qed.

(** With one database, the transaction manager has each table's own heap. *)
Definition single (w : world) : Prop :=
  w_cur w = "default"%string /\ exists d, w_dbs w = {[ "default"%string := d ]} /\
  forall n i, db_table d n = Some i -> w_heaps w !! t_oid i = Some (t_first i).

Lemma single_step o w s : wrep w s -> one_database o = true -> single w -> single (step o w).2.
Proof.
  intros H Ho (C & d & Ed & Hh). destruct o as [m|m|m sc room stored|m t attrs u stored]; cbn [step]; [discriminate| | |].
  - destruct (w_dbs w !! m) as [x|] eqn:Em; cbn [snd]; [|split; eauto].
    split; [|exists d; auto]. cbn [w_cur]. rewrite Ed in Em. by apply lookup_singleton_Some in Em as [<- _].
  - rewrite C, Ed, lookup_singleton. destruct (new_heap_page room w) as [p next].
    assert (R : exists x, rep d x) by (destruct (wr_some w s "default"%string d H) as (x & _ & R); [by rewrite Ed, lookup_singleton|eauto]).
    destruct R as [x R].
    destruct (db_create_table m sc p d) as [[j d2]|] eqn:Ec; cbn [snd]; [|split; [done|exists d; auto]].
    split; [done|]. exists d2. cbn [w_dbs w_heaps]. split; [by rewrite insert_singleton|].
    intros n i Hi. rewrite (create_table_lookup _ _ _ _ _ _ n (rp_ok _ _ R) Ec) in Hi.
    destruct (decide (n = m)) as [->|Hn]; [injection Hi as <-; by rewrite lookup_insert|].
    rewrite lookup_insert_ne; [by eapply Hh|]. destruct (create_table_spec _ _ _ _ _ _ (rp_ok _ _ R) Ec) as (_ & _ & -> & _). cbn.
    apply (db_table_spec _ _ _ (rp_ok _ _ R)) in Hi as (_ & Hi & _). apply (ok_tab _ (rp_ok _ _ R)) in Hi. lia.
  - rewrite C, Ed, lookup_singleton. destruct (db_create_index m t attrs u d) as [[j d2]|] eqn:Ec; cbn [snd]; [|split; [done|exists d; auto]].
    split; [done|]. destruct (create_index_spec _ _ _ _ _ _ _ Ec) as (_ & _ & _ & E). exists (db_add_index j d2). cbn [w_dbs w_heaps].
    split; [by rewrite insert_singleton|]. rewrite E. exact Hh.
Qed.

Lemma single_run ops : forall w s, wrep w s -> forallb one_database ops = true -> single w -> single (run ops w).2.
Proof.
  induction ops as [|o ops IH]; intros w s H F S; cbn [run]; [done|]. cbn in F. apply andb_prop in F as [F1 F2].
  pose proof (single_step o w s H F1 S) as S1. destruct (step o w) as [b w1] eqn:E1.
  destruct (step_ok _ _ _ _ _ H E1) as (s1 & _ & H1). pose proof (IH _ _ H1 F2 S1) as P2.
  destruct (run ops w1) as [bs w2]. exact P2.
Qed.

Lemma single_boot : single (boot None).
Proof. rewrite boot_none. split; [done|]. exists new_db. split; [done|]. intros n i. discriminate. Qed.

(** ** Restarts *)
Lemma step_snap o w : w_snap (step o w).2 = w_snap w.
Proof.
  destruct o as [m|m|m sc room stored|m t attrs u stored]; cbn [step]; repeat case_match; reflexivity.
Qed.

Lemma run_snap ops : forall w, w_snap (run ops w).2 = w_snap w.
Proof.
  induction ops as [|o ops IH]; intros w; cbn [run]; [done|]. pose proof (step_snap o w) as E. destruct (step o w) as [b w1].
  specialize (IH w1). destruct (run ops w1). cbn in *. congruence.
Qed.

Lemma lives_none l : forall w, w_snap w = None -> w = boot None \/ l <> [] -> lives l w = boot None.
Proof.
  induction l as [|ops l IH]; intros w E Hl; cbn [lives].
  - destruct Hl; done.
  - unfold restart. rewrite run_snap, E. apply IH; [reflexivity|by left].
Qed.

(** ** Rebuilding *)
Lemma db_load_app l1 l2 d : db_load (l1 ++ l2) d = db_load l2 (db_load l1 d).
Proof. apply fold_left_app. Qed.

Lemma db_load_lookup l : forall d, NoDup (map t_oid l) -> NoDup (map t_name l) ->
  (forall i, In i l -> d_tables (db_load l d) !! t_oid i = Some i /\ d_names (db_load l d) !! t_name i = Some (t_oid i)) /\
  (forall o, ~ In o (map t_oid l) -> d_tables (db_load l d) !! o = d_tables d !! o) /\
  (forall n, ~ In n (map t_name l) -> d_names (db_load l d) !! n = d_names d !! n).
Proof.
  induction l as [|x l IH] using rev_ind; intros d N1 N2; [cbn; tauto|].
  rewrite !map_app in *. cbn [map] in *. apply NoDup_app in N1 as (N1 & D1 & _). apply NoDup_app in N2 as (N2 & D2 & _).
  destruct (IH d N1 N2) as (A & B & C). rewrite db_load_app.
  change (db_load [x] (db_load l d)) with (db_load1 (db_load l d) x). cbn [d_tables d_names db_load1].
  repeat split.
  - apply in_app_iff in H as [H|[<-|[]]]; [|by rewrite lookup_insert].
    rewrite lookup_insert_ne; [by apply A|]. intros E. apply (D1 (t_oid i)); [by apply elem_of_list_In, in_map|]. rewrite E. set_solver.
  - apply in_app_iff in H as [H|[<-|[]]]; [|by rewrite lookup_insert].
    rewrite lookup_insert_ne; [by apply A|]. intros E. apply (D2 (t_name i)); [by apply elem_of_list_In, in_map|]. rewrite E. set_solver.
  - intros o Ho. rewrite in_app_iff in Ho. rewrite lookup_insert_ne; [apply B; tauto|]. intros E. apply Ho. right. by left.
  - intros n Hn. rewrite in_app_iff in Hn. rewrite lookup_insert_ne; [apply C; tauto|]. intros E. apply Hn. right. by left.
Qed.

(** The rows of the system table are the tables, in the order in which they were created. *)
Definition recorded (w : world) : Prop :=
  w_cur w = "default"%string /\ exists d l, w_dbs w = {[ "default"%string := d ]} /\
  w_rows w = map info_row l /\ NoDup (map t_oid l) /\ NoDup (map t_name l) /\
  (forall i, In i l -> db_table d (t_name i) = Some i /\ t_last i = t_first i /\ 5 <= t_oid i) /\
  (forall n i, db_table d n = Some i -> In i l).

Lemma recorded_step o w s : wrep w s -> one_database o = true -> all_stored o = true -> recorded w -> recorded (step o w).2.
Proof.
  intros H Ho Hs (C & d & l & Ed & Er & N1 & N2 & A & B).
  assert (R : exists x, rep d x) by (destruct (wr_some w s "default"%string d H) as (x & _ & R); [by rewrite Ed, lookup_singleton|eauto]).
  destruct R as [x R].
  destruct o as [m|m|m sc room stored|m t attrs u stored]; cbn [step]; [discriminate| | |].
  - destruct (w_dbs w !! m) as [y|] eqn:Em; cbn [snd].
    + split; [|exists d, l; auto 10]. cbn [w_cur]. rewrite Ed in Em. by apply lookup_singleton_Some in Em as [<- _].
    + split; [done|exists d, l; auto 10].
  - rewrite C, Ed, lookup_singleton. destruct (new_heap_page room w) as [p next]. cbn in Hs. subst stored.
    destruct (db_create_table m sc p d) as [[j d2]|] eqn:Ec; cbn [snd]; [|split; [done|exists d, l; auto 10]].
    destruct (create_table_spec _ _ _ _ _ _ (rp_ok _ _ R) Ec) as (E1 & _ & Ej & _).
    assert (Hnew : forall i, In i l -> t_name i <> m /\ t_oid i <> d_next d).
    { intros i Hi. destruct (A i Hi) as (Hi2 & _). pose proof Hi2 as Hi3. apply (db_table_spec _ _ _ (rp_ok _ _ R)) in Hi2 as (_ & Hi2 & _).
      apply (ok_tab _ (rp_ok _ _ R)) in Hi2. split; [|lia]. intros <-. apply (db_table_none _ _ (rp_ok _ _ R)) in E1. congruence. }
    split; [done|]. exists d2, (l ++ [j]). cbn [w_dbs w_rows]. rewrite insert_singleton, Er, !map_app. cbn [map].
    split; [done|]. split; [done|]. split; [|split; [|split]].
    + apply NoDup_app. split; [done|]. split; [|apply NoDup_singleton]. intros o Ho2 Hin. apply elem_of_list_singleton in Hin.
      apply elem_of_list_In, in_map_iff in Ho2 as (i & E & Hi). destruct (Hnew i Hi) as [_ Hi2]. subst j. cbn in Hin. congruence.
    + apply NoDup_app. split; [done|]. split; [|apply NoDup_singleton]. intros o Ho2 Hin. apply elem_of_list_singleton in Hin.
      apply elem_of_list_In, in_map_iff in Ho2 as (i & E & Hi). destruct (Hnew i Hi) as [Hi2 _]. subst j. cbn in Hin. congruence.
    + intros i Hi. rewrite (create_table_lookup _ _ _ _ _ _ _ (rp_ok _ _ R) Ec). apply in_app_iff in Hi as [Hi|[<-|[]]].
      * destruct (A i Hi) as (Q1 & Q2 & Q3). rewrite decide_False by (by apply Hnew). auto.
      * rewrite decide_True by (by subst j). subst j. cbn. split; [done|]. split; [done|]. apply R.
    + intros n i Hi. rewrite (create_table_lookup _ _ _ _ _ _ _ (rp_ok _ _ R) Ec) in Hi. apply in_app_iff.
      destruct (decide (n = m)); [injection Hi as <-; right; by left|]. left. by eapply B.
  - rewrite C, Ed, lookup_singleton. destruct (db_create_index m t attrs u d) as [[j d2]|] eqn:Ec; cbn [snd]; [|split; [done|exists d, l; auto 10]].
    split; [done|]. destruct (create_index_spec _ _ _ _ _ _ _ Ec) as (_ & _ & _ & E). exists (db_add_index j d2), l. cbn [w_dbs w_rows].
    split; [by rewrite insert_singleton|]. rewrite E. auto 10.
Qed.

Lemma recorded_run ops : forall w s, wrep w s -> forallb one_database ops = true -> forallb all_stored ops = true -> recorded w -> recorded (run ops w).2.
Proof.
  induction ops as [|o ops IH]; intros w s H F G S; cbn [run]; [done|]. cbn in F, G. apply andb_prop in F as [F1 F2]. apply andb_prop in G as [G1 G2].
  pose proof (recorded_step o w s H F1 G1 S) as S1. destruct (step o w) as [b w1] eqn:E1.
  destruct (step_ok _ _ _ _ _ H E1) as (s1 & _ & H1). pose proof (IH _ _ H1 F2 G2 S1) as P2.
  destruct (run ops w1) as [bs w2]. exact P2.
Qed.

Lemma recorded_boot : recorded (boot None).
Proof.
  rewrite boot_none. split; [done|]. exists new_db, []. cbn [w_dbs w_rows map]. split; [done|]. split; [done|].
  split; [constructor|]. split; [constructor|]. split; [intros i []|]. intros n i. discriminate.
Qed.

Lemma info_row_info i : t_last i = t_first i -> row_info (info_row i) = i.
Proof. destruct i as [n o sc f l]. cbn. intros ->. unfold row_info, info_row. cbn [r_oid r_name r_first r_last r_schema t_oid t_name t_first t_last t_schema]. by destruct (f =? no_page). Qed.

Lemma user_rows_all l : (forall i, In i l -> 5 <= t_oid i) -> user_rows (map info_row l) = map info_row l.
Proof.
  induction l as [|x l IH]; intros H; [done|]. cbn [map user_rows List.filter].
  assert (5 <= t_oid x) by (apply H; by left). unfold SYS_TABLES_OID. cbn [r_oid info_row].
  destruct (t_oid x <=? 1) eqn:E; [apply N.leb_le in E; lia|]. cbn [negb]. f_equal. apply IH. intros i Hi. apply H. by right.
Qed.

Lemma rows_infos l : (forall i, In i l -> t_last i = t_first i) -> map row_info (map info_row l) = l.
Proof.
  induction l as [|x l IH]; intros H; [done|]. cbn [map]. rewrite info_row_info by (apply H; by left). f_equal. apply IH. intros i Hi. apply H. by right.
Qed.

(** Loading the tables of [l] into a database that has no others shows exactly these. *)
Lemma load_shows l d : NoDup (map t_oid l) -> NoDup (map t_name l) -> (forall n, is_Some (d_names d !! n) -> In n (map t_name l)) ->
  forall n i, db_table (db_load l d) n = Some i <-> In i l /\ t_name i = n.
Proof.
  intros N1 N2 Hd n i. destruct (db_load_lookup l d N1 N2) as (A & B & C). unfold db_table. split.
  - destruct (in_dec string_dec n (map t_name l)) as [Hn|Hn].
    + apply in_map_iff in Hn as (j & <- & Hj). destruct (A j Hj) as [A1 ->]. rewrite A1. intros [= <-]. done.
    + rewrite (C n Hn). destruct (d_names d !! n) eqn:E; [|discriminate]. exfalso. apply Hn, Hd. by rewrite E.
  - intros [Hi <-]. destruct (A i Hi) as [A1 ->]. exact A1.
Qed.

Lemma option_ext {A} (a b : option A) : (forall x, a = Some x <-> b = Some x) -> a = b.
Proof. intros H. destruct a as [x|]; [symmetry; by apply H|]. destruct b as [y|]; [|done]. by apply H. Qed.

Lemma rebuild_keeps w n s : wrep w s -> recorded w -> w_snap w = None -> get_table (rebuild w) n = get_table w n.
Proof.
  intros H (C & d & l & Ed & Er & N1 & N2 & A & B) Hs. unfold get_table, table_in, rebuild. cbn [w_cur w_dbs]. rewrite Hs, Er, C, Ed.
  rewrite user_rows_all by (intros; by apply A). cbn [app]. rewrite rows_infos by (intros; by apply A).
  rewrite lookup_alter, !lookup_singleton. cbn [fmap option_fmap option_map].
  apply option_ext. intros i. rewrite (load_shows l d N1 N2).
  - split; [intros [Hi <-]; by apply A|]. intros E. split; [by eapply B|].
    assert (R : exists x, rep d x) by (destruct (wr_some w s "default"%string d H) as (x & _ & R); [by rewrite Ed, lookup_singleton|eauto]).
    destruct R as [x R]. by apply (db_table_spec _ _ _ (rp_ok _ _ R)) in E as (_ & _ & ->).
  - assert (R : exists x, rep d x) by (destruct (wr_some w s "default"%string d H) as (x & _ & R); [by rewrite Ed, lookup_singleton|eauto]).
    destruct R as [x R]. intros m [o Ho]. destruct (db_table d m) as [j|] eqn:Ej.
    + apply (db_table_spec _ _ _ (rp_ok _ _ R)) in Ej as Ej2. destruct Ej2 as (_ & _ & <-). apply in_map. by eapply B.
    + apply (db_table_none _ _ (rp_ok _ _ R)) in Ej. congruence.
Qed.

Lemma restart_rebuilt w n s : wrep w s -> recorded w -> w_snap w = None -> get_table (restart (rebuild w)) n = get_table w n.
Proof.
  intros H (C & d & l & Ed & Er & N1 & N2 & A & B) Hs.
  assert (R : exists x, rep d x) by (destruct (wr_some w s "default"%string d H) as (x & _ & R); [by rewrite Ed, lookup_singleton|eauto]).
  destruct R as [x R].
  assert (G : get_table w n = db_table d n) by (unfold get_table, table_in; by rewrite C, Ed, lookup_singleton).
  assert (U : user_rows (map info_row l) = map info_row l) by (apply user_rows_all; intros; by apply A).
  rewrite G. unfold restart. unfold rebuild at 1. cbn [w_snap]. rewrite Hs, Er, U.
  assert (E : (match map info_row l with [] => None | _ :: _ => Some (map info_row l) end) = if decide (l = []) then None else Some (map info_row l)) by (by destruct l).
  rewrite E. clear E. destruct (decide (l = [])) as [->|Hl].
  - rewrite boot_none. unfold get_table, table_in. cbn [w_cur w_dbs]. rewrite lookup_singleton. cbn.
    destruct (db_table d n) as [j|] eqn:Ej; [|done]. by apply B in Ej.
  - unfold get_table, table_in, boot, rebuild. cbn [w_cur w_dbs w_snap w_rows user_rows List.filter]. rewrite U, app_nil_r, rows_infos by (intros; by apply A).
    rewrite lookup_alter, lookup_singleton. cbn [fmap option_fmap option_map]. apply option_ext. intros i.
    rewrite (load_shows l new_db N1 N2).
    + split; [intros [Hi <-]; by apply A|]. intros Ei. split; [by eapply B|]. by apply (db_table_spec _ _ _ (rp_ok _ _ R)) in Ei as (_ & _ & ->).
    + intros m [o Ho]. cbn in Ho. by rewrite lookup_empty in Ho.
Qed.
