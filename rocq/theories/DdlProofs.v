(** * Lemmas about CREATE TABLE *)
From Coq Require Import ZArith String.
From stdpp Require Import base list strings.
From Verif Require Import DdlSpec DdlModel.
Local Open Scope nat_scope.

(** ** Options of one column *)
Lemma parse_option_base c o c' : parse_option c o = Some c' ->
  r_name c' = r_name c /\ r_type c' = r_type c /\ r_len c' = r_len c /\ r_prec c' = r_prec c /\ r_scale c' = r_scale c.
Proof.
  destruct c as [n t l p s pk nn un ck df fk]; destruct o as [| | | |tb [|rc [|? ?]] del upd|e|e|]; cbn; intros H;
    try discriminate; injection H as <-; repeat split.
Qed.
Lemma parse_options_base os : forall c c', parse_options c os = Some c' ->
  r_name c' = r_name c /\ r_type c' = r_type c /\ r_len c' = r_len c /\ r_prec c' = r_prec c /\ r_scale c' = r_scale c.
Proof.
  induction os as [|o os IH]; intros c c' H; cbn in H.
  - injection H as <-. repeat split.
  - destruct (parse_option c o) as [c1|] eqn:E; [|discriminate].
    apply parse_option_base in E. apply IH in H. intuition congruence.
Qed.

Lemma parse_options_flags os : forall c c', parse_options c os = Some c' ->
  (r_pk c' = true <-> r_pk c = true \/ OPk ∈ os) /\
  (r_unique c' = true <-> r_unique c = true \/ OUnique ∈ os) /\
  (ONull ∉ os -> (r_notnull c' = true <-> r_notnull c = true \/ OPk ∈ os \/ ONotNull ∈ os)).
Proof.
  induction os as [|o os IH]; intros c c' H; cbn in H.
  - injection H as <-. setoid_rewrite elem_of_nil. tauto.
  - destruct (parse_option c o) as [c1|] eqn:E; [|discriminate].
    destruct (IH _ _ H) as (A & B & C). clear IH H.
    setoid_rewrite elem_of_cons.
    split; [rewrite A|split; [rewrite B|intros NN; rewrite (C ltac:(tauto)); assert (N1 : ONull <> o) by tauto; clear NN]]; clear A B C;
      destruct c as [n t l p s pk nn un ck df fk]; destruct o as [| | | |tb [|rc [|? ?]] del upd|e|e|]; cbn in E |- *;
        try discriminate; injection E as <-; cbn; intuition congruence.
Qed.

Lemma parse_options_null os : forall c c', parse_options c os = Some c' ->
  OPk ∉ os -> ONotNull ∉ os -> r_notnull c' = true -> r_notnull c = true.
Proof.
  induction os as [|o os IH]; intros c c' H; cbn in H.
  - injection H as <-. auto.
  - destruct (parse_option c o) as [c1|] eqn:E; [|discriminate].
    rewrite !not_elem_of_cons. intros [N1 N2] [M1 M2] R. pose proof (IH _ _ H N2 M2 R) as Q. clear IH H.
    destruct c as [n t l p s pk nn un ck df fk]; destruct o as [| | | |tb [|rc [|? ?]] del upd|e|e|]; cbn in E |- *;
      try discriminate; try congruence; injection E as <-; cbn in Q; try exact Q; discriminate.
Qed.

Lemma parse_options_check os : forall c c', parse_options c os = Some c' ->
  (forall e, r_check c' = Some e -> r_check c = Some e \/ OCheck e ∈ os) /\
  (forall e, r_check c = Some e \/ OCheck e ∈ os -> exists e', r_check c' = Some e').
Proof.
  induction os as [|o os IH]; intros c c' H; cbn in H.
  - injection H as <-. setoid_rewrite elem_of_nil. split; [tauto|]. intros e [Q|[]]. eauto.
  - destruct (parse_option c o) as [c1|] eqn:E; [|discriminate].
    destruct (IH _ _ H) as (A & B). clear IH H. setoid_rewrite elem_of_cons.
    destruct c as [n t l p s pk nn un ck df fk].
    destruct o as [| | | |tb [|rc [|? ?]] del upd|e0|e0|]; cbn in E; try discriminate; injection E as <-; cbn in *.
    all: split; intros e Q;
      [apply A in Q; cbn in Q; try (intuition congruence)
      |try (apply (B e); intuition congruence); try (apply (B e0); left; reflexivity)].
Qed.

(** A foreign key option that is recorded has one referred column. *)
Lemma parse_options_fk1 os : forall c c', parse_options c os = Some c' ->
  forall tb cols del upd, OFk tb cols del upd ∈ os -> exists rc, cols = [rc].
Proof.
  induction os as [|o os IH]; intros c c' H tb cols del upd I; cbn in H; [inversion I|].
  destruct (parse_option c o) as [c1|] eqn:E; [|discriminate].
  apply elem_of_cons in I. destruct I as [<-|I]; [|eapply IH; eauto].
  destruct c; cbn in E. destruct cols as [|rc [|? ?]]; try discriminate. eauto.
Qed.
Lemma parse_options_fk os : forall c c', parse_options c os = Some c' ->
  (forall f, r_fk c' = Some f -> r_fk c = Some f \/ OFk (rf_table f) [rf_col f] (rf_del f) (rf_upd f) ∈ os) /\
  ((exists f, r_fk c = Some f) \/ (exists tb rc del upd, OFk tb [rc] del upd ∈ os) -> exists f, r_fk c' = Some f).
Proof.
  induction os as [|o os IH]; intros c c' H; cbn in H.
  - injection H as <-. setoid_rewrite elem_of_nil. split; [tauto|]. intros [Q|(? & ? & ? & ? & [])]. exact Q.
  - destruct (parse_option c o) as [c1|] eqn:E; [|discriminate].
    destruct (IH _ _ H) as (A & B). clear IH H. setoid_rewrite elem_of_cons.
    destruct c as [n t l p s pk nn un ck df fk].
    destruct o as [| | | |tb [|rc [|? ?]] del upd|e0|e0|]; cbn in E; try discriminate; injection E as <-; cbn in *.
    5: { split.
         - intros f Q. apply A in Q. destruct Q as [[= <-]|Q]; cbn; auto.
         - intros _. apply B. left. eauto. }
    all: split; [intros f Q; apply A in Q; tauto|].
    all: intros [Q|(tb & rc & del & upd & [Q|Q])]; [apply B; auto|discriminate|apply B; right; eauto 6].
Qed.

(** ** Constraints of the table, column by column *)
Definition named (ns : list string) (c : rcol) : bool := existsb (String.eqb (r_name c)) ns.
Lemma named_spec ns c : named ns c = true <-> r_name c ∈ ns.
Proof.
  unfold named. rewrite existsb_exists. setoid_rewrite <- elem_of_list_In. setoid_rewrite String.eqb_eq.
  split; [intros (x & I & ->); exact I|eauto].
Qed.
Definition eff (c : tcon) (x : rcol) : rcol :=
  match c with
  | TPk ns => if named ns x then set_pk x else x
  | TUnique ns => if named ns x then set_unique x else x
  | TFk [n] tb [rc] _ _ => if named [n] x then set_fk (RFk tb rc None None) x else x
  | _ => x
  end.
Definition effs (cs : list tcon) (x : rcol) : rcol := fold_left (fun x c => eff c x) cs x.

Lemma set_pk_name x : r_name (set_pk x) = r_name x. Proof. destruct x; reflexivity. Qed.
Lemma set_unique_name x : r_name (set_unique x) = r_name x. Proof. destruct x; reflexivity. Qed.
Lemma set_fk_name f x : r_name (set_fk f x) = r_name x. Proof. destruct x; reflexivity. Qed.
Lemma eff_name c x : r_name (eff c x) = r_name x.
Proof.
  destruct c as [ns|ns|[|n [|? ?]] tb [|rc [|? ?]] d u|e|]; cbn [eff]; try reflexivity;
    destruct (named _ x); auto using set_pk_name, set_unique_name, set_fk_name.
Qed.
Lemma effs_name cs : forall x, r_name (effs cs x) = r_name x.
Proof. induction cs as [|c cs IH]; intros x; [reflexivity|]. change (effs (c :: cs) x) with (effs cs (eff c x)). rewrite (IH (eff c x)). apply eff_name. Qed.

Section upd.
  Context (f : rcol -> rcol) (Fn : forall x, r_name (f x) = r_name x) (Fi : forall x, f (f x) = f x).
  Lemma upd_absent n cols : n ∉ (r_name <$> cols) -> map (fun x => if named [n] x then f x else x) cols = cols.
  Proof.
    induction cols as [|c cs IH]; [reflexivity|]. rewrite fmap_cons, not_elem_of_cons. intros [N1 N2]. cbn [map].
    rewrite (IH N2). unfold named; cbn [existsb].
    destruct (String.eqb_spec (r_name c) n); [congruence|]. reflexivity.
  Qed.
  Lemma upd_col_spec n : forall cols cols', NoDup (r_name <$> cols) -> upd_col n f cols = Some cols' ->
    cols' = map (fun x => if named [n] x then f x else x) cols /\ n ∈ (r_name <$> cols).
  Proof.
    induction cols as [|c cs IH]; intros cols' ND H; cbn [upd_col] in H; [discriminate|].
    rewrite fmap_cons in ND. apply NoDup_cons in ND as [N1 ND]. rewrite fmap_cons. cbn [map].
    unfold named at 1; cbn [existsb].
    destruct (String.eqb_spec (r_name c) n) as [E|E].
    - injection H as <-. subst n. rewrite upd_absent by exact N1. split; [reflexivity|]. apply elem_of_list_here.
    - destruct (upd_col n f cs) as [cs'|] eqn:U; [|discriminate]. injection H as <-.
      destruct (IH _ ND eq_refl) as [-> I]. split; [reflexivity|]. apply elem_of_list_further. exact I.
  Qed.
  Lemma map_names (g : rcol -> rcol) (cols : list rcol) :
    (forall x, r_name (g x) = r_name x) -> r_name <$> map g cols = r_name <$> cols.
  Proof. intros G. induction cols as [|c cs IH]; [reflexivity|]. cbn [map]. rewrite !fmap_cons, IH, G. reflexivity. Qed.
  Lemma upd_cols_spec ns : forall cols cols', NoDup (r_name <$> cols) -> upd_cols ns f cols = Some cols' ->
    cols' = map (fun x => if named ns x then f x else x) cols /\ forall n, n ∈ ns -> n ∈ (r_name <$> cols).
  Proof.
    induction ns as [|n ns IH]; intros cols cols' ND H; cbn [upd_cols] in H.
    - injection H as <-. split; [|intros n I; inversion I]. symmetry.
      transitivity (map (fun x : rcol => x) cols); [|apply map_id]. apply map_ext. intros x. reflexivity.
    - destruct (upd_col n f cols) as [c1|] eqn:U; [|discriminate].
      destruct (upd_col_spec _ _ _ ND U) as [-> I].
      assert (Q : r_name <$> map (fun x => if named [n] x then f x else x) cols = r_name <$> cols).
      { apply map_names. intros x. destruct (named _ x); [apply Fn|reflexivity]. }
      destruct (IH _ _ ltac:(rewrite Q; exact ND) H) as [-> J]. rewrite Q in J. split.
      + rewrite map_map. apply map_ext. intros x. unfold named; cbn [existsb].
        destruct (String.eqb_spec (r_name x) n) as [E|E]; cbn [orb].
        * rewrite Fn. destruct (existsb _ ns); [apply Fi|reflexivity].
        * reflexivity.
      + intros m M. apply elem_of_cons in M as [->|M]; auto.
  Qed.
End upd.

(** The columns a constraint names exist. *)
Definition con_names (c : tcon) : list string :=
  match c with
  | TPk ns | TUnique ns => ns
  | TFk [n] _ [_] _ _ => [n]
  | _ => []
  end.
Lemma process_con_spec cols c cols' : NoDup (r_name <$> cols) -> process_con cols c = Some cols' ->
  cols' = map (eff c) cols /\ forall n, n ∈ con_names c -> n ∈ (r_name <$> cols).
Proof.
  intros ND H.
  assert (Z0 : forall l : list rcol, l = map (fun x => x) l) by (intros l; symmetry; apply map_id).
  destruct c as [ns|ns|[|n [|? ?]] tb [|rc [|? ?]] d u|e|]; cbn [process_con con_names] in *.
  all: try (injection H as <-; split; [apply Z0|intros n' I; inversion I]).
  - apply (upd_cols_spec set_pk set_pk_name ltac:(intros []; reflexivity)) in H; assumption.
  - apply (upd_cols_spec set_unique set_unique_name ltac:(intros []; reflexivity)) in H; assumption.
  - apply (upd_col_spec _ n) in H; [|exact ND]. destruct H as [-> I]. split; [reflexivity|].
    intros m M. apply elem_of_list_singleton in M as ->. exact I.
Qed.
Lemma process_cons_spec cs : forall cols cols', NoDup (r_name <$> cols) -> process_cons cols cs = Some cols' ->
  cols' = map (effs cs) cols /\ forall c n, c ∈ cs -> n ∈ con_names c -> n ∈ (r_name <$> cols).
Proof.
  induction cs as [|c cs IH]; intros cols cols' ND H; cbn [process_cons] in H.
  - injection H as <-. split; [symmetry; apply map_id|]. intros ? ? I. inversion I.
  - destruct (process_con cols c) as [c1|] eqn:P; [|discriminate].
    destruct (process_con_spec _ _ _ ND P) as [-> I].
    assert (Q : r_name <$> map (eff c) cols = r_name <$> cols).
    { clear. induction cols as [|x xs IH]; [reflexivity|]. cbn [map]. rewrite !fmap_cons, IH, eff_name. reflexivity. }
    destruct (IH _ _ ltac:(rewrite Q; exact ND) H) as [-> J]. rewrite Q in J. split.
    + rewrite map_map. reflexivity.
    + intros c0 n M. apply elem_of_cons in M as [->|M]; eauto.
Qed.

Lemma effs_flags cs : forall x,
  (r_pk (effs cs x) = true <-> r_pk x = true \/ exists ns, TPk ns ∈ cs /\ r_name x ∈ ns) /\
  (r_notnull (effs cs x) = true <-> r_notnull x = true \/ exists ns, TPk ns ∈ cs /\ r_name x ∈ ns) /\
  (r_unique (effs cs x) = true <-> r_unique x = true \/ exists ns, TUnique ns ∈ cs /\ r_name x ∈ ns) /\
  r_check (effs cs x) = r_check x.
Proof.
  induction cs as [|c cs IH]; intros x.
  - cbn. repeat split; auto; intros [H|(ns & H & _)]; auto; inversion H.
  - change (effs (c :: cs) x) with (effs cs (eff c x)).
    destruct (IH (eff c x)) as (A & B & C & D). clear IH. rewrite eff_name in *.
    rewrite A, B, C, D. clear A B C D. setoid_rewrite elem_of_cons.
    assert (G : (r_pk (eff c x) = true <-> r_pk x = true \/ exists ns, TPk ns = c /\ r_name x ∈ ns) /\
                (r_notnull (eff c x) = true <-> r_notnull x = true \/ exists ns, TPk ns = c /\ r_name x ∈ ns) /\
                (r_unique (eff c x) = true <-> r_unique x = true \/ exists ns, TUnique ns = c /\ r_name x ∈ ns) /\
                r_check (eff c x) = r_check x).
    { destruct c as [ns|ns|[|n [|? ?]] tb [|rc [|? ?]] d u|e|]; cbn [eff].
      1,2: destruct (named ns x) eqn:E; [apply named_spec in E|assert (N : r_name x ∉ ns) by (rewrite <- named_spec; congruence)];
        destruct x as [xn xt xl xp xs xpk xnn xun xck xdf xfk]; cbn in *; repeat split; intros;
          repeat match goal with H : _ \/ _ |- _ => destruct H | H : exists _, _ |- _ => destruct H | H : _ /\ _ |- _ => destruct H end;
          try (injection H as ->); try discriminate; try contradiction; auto; right; eauto.
      all: try destruct (named _ x); destruct x; cbn; repeat split; auto; intros [H|(ns & H & _)]; auto; discriminate. }
    destruct G as (A & B & C & D). rewrite A, B, C, D. clear.
    split; [|split; [|split; [|reflexivity]]];
      (split; [intros [[H|(ns & H & I)]|(ns & H & I)]|intros [H|(ns & [H|H] & I)]]; eauto 6).
Qed.
Lemma effs_fk cs : forall x,
  (forall f, r_fk (effs cs x) = Some f -> r_fk x = Some f \/
     (rf_del f = None /\ rf_upd f = None /\ exists del upd, TFk [r_name x] (rf_table f) [rf_col f] del upd ∈ cs)) /\
  ((exists f, r_fk x = Some f) \/ (exists tb rc del upd, TFk [r_name x] tb [rc] del upd ∈ cs) ->
     exists f, r_fk (effs cs x) = Some f).
Proof.
  induction cs as [|c cs IH]; intros x.
  - cbn. split; [auto|]. intros [H|(? & ? & ? & ? & H)]; [exact H|inversion H].
  - change (effs (c :: cs) x) with (effs cs (eff c x)).
    destruct (IH (eff c x)) as (A & B). clear IH. rewrite eff_name in *. setoid_rewrite elem_of_cons.
    assert (G : (forall f, r_fk (eff c x) = Some f -> r_fk x = Some f \/
                   (rf_del f = None /\ rf_upd f = None /\ exists del upd, TFk [r_name x] (rf_table f) [rf_col f] del upd = c)) /\
                ((exists f, r_fk x = Some f) \/ (exists tb rc del upd, TFk [r_name x] tb [rc] del upd = c) ->
                   exists f, r_fk (eff c x) = Some f)).
    { destruct c as [ns|ns|[|n [|? ?]] tb [|rc [|? ?]] d u|e|]; cbn [eff].
      7: { destruct (named [n] x) eqn:E.
           - apply named_spec, elem_of_list_singleton in E as <-. destruct x; cbn. split.
             + intros f [= <-]. right. cbn. split; [reflexivity|split; [reflexivity|eauto]].
             + eauto.
           - assert (N : r_name x ∉ [n]) by (rewrite <- named_spec; congruence). split; [auto|].
             intros [H|(tb' & rc' & d' & u' & H)]; [exact H|]. injection H as H _ _ _ _. exfalso. apply N. rewrite H. apply elem_of_list_here. }
      all: try destruct (named _ x); destruct x; cbn; (split; [auto|]);
        (intros [H|(? & ? & ? & ? & H)]; [exact H|discriminate]). }
    destruct G as (A' & B'). split.
    + intros f H. apply A in H. destruct H as [H|(D1 & D2 & del & upd & H)].
      * apply A' in H. destruct H as [H|(D1 & D2 & del & upd & H)]; [auto|]. right. eauto 7.
      * right. eauto 7.
    + intros H. apply B. destruct H as [H|(tb & rc & d & u & [H|H])].
      * left. apply B'. auto.
      * left. apply B'. right. eauto 7.
      * right. eauto 7.
Qed.

(** ** The whole statement *)
Lemma convert_def_spec d c : convert_def d = Some c -> exists ty l p s,
  convert_type (cd_type d) = Some ty /\ type_params (cd_type d) ty = Some (l, p, s) /\
  parse_options (RC (cd_name d) ty l p s false false false None None None) (cd_opts d) = Some c.
Proof.
  unfold convert_def. destruct (convert_type _) as [ty|]; [|discriminate].
  destruct (type_params _ ty) as [[[l p] s]|] eqn:T; [|discriminate]. intros H. exists ty, l, p, s. auto.
Qed.
Lemma convert_def_name d c : convert_def d = Some c -> r_name c = cd_name d.
Proof. intros H. destruct (convert_def_spec _ _ H) as (ty & l & p & s & _ & _ & P). apply parse_options_base in P. tauto. Qed.
Lemma convert_defs_names defs cols : mapM convert_def defs = Some cols -> r_name <$> cols = cd_name <$> defs.
Proof.
  intros H. apply mapM_Some in H. induction H as [|d c ds cs H _ IH]; [reflexivity|].
  rewrite !fmap_cons, IH, (convert_def_name _ _ H). reflexivity.
Qed.

Lemma elem_of_list_dec_null (os : list copt) : ONull ∈ os \/ ONull ∉ os.
Proof.
  induction os as [|o os [IH|IH]]; [right; apply not_elem_of_nil|left; apply elem_of_list_further; exact IH|].
  destruct o; try (right; apply not_elem_of_cons; split; [discriminate|exact IH]). left. apply elem_of_list_here.
Qed.

(** What is recorded of each column. *)
Definition declared_col (defs : list cdef) (cons : list tcon) (d : cdef) (c : rcol) : Prop :=
  r_name c = cd_name d /\
  (r_pk c = true <-> OPk ∈ cd_opts d \/ exists ns, TPk ns ∈ cons /\ cd_name d ∈ ns) /\
  ((ONull ∈ cd_opts d -> OPk ∉ cd_opts d /\ ONotNull ∉ cd_opts d) ->
     (r_notnull c = true <-> (OPk ∈ cd_opts d \/ ONotNull ∈ cd_opts d) \/ exists ns, TPk ns ∈ cons /\ cd_name d ∈ ns)) /\
  (r_unique c = true <-> OUnique ∈ cd_opts d \/ exists ns, TUnique ns ∈ cons /\ cd_name d ∈ ns) /\
  (forall e, r_check c = Some e -> OCheck e ∈ cd_opts d) /\
  (forall e, OCheck e ∈ cd_opts d -> exists e', r_check c = Some e') /\
  (forall f, r_fk c = Some f -> (exists del upd, OFk (rf_table f) [rf_col f] del upd ∈ cd_opts d) \/
                                exists del upd, TFk [cd_name d] (rf_table f) [rf_col f] del upd ∈ cons) /\
  ((exists tb rc del upd, OFk tb [rc] del upd ∈ cd_opts d) \/ (exists tb rc del upd, TFk [cd_name d] tb [rc] del upd ∈ cons) ->
     exists f, r_fk c = Some f) /\
  (forall tb cols del upd, OFk tb cols del upd ∈ cd_opts d -> exists rc, cols = [rc]).

Lemma create_spec defs cons cols : NoDup (cd_name <$> defs) -> create_table defs cons = Some cols ->
  r_name <$> cols = cd_name <$> defs /\
  Forall2 (declared_col defs cons) defs cols /\
  forall c n, c ∈ cons -> n ∈ con_names c -> n ∈ (cd_name <$> defs).
Proof.
  intros ND H. unfold create_table in H. destruct defs as [|d0 ds]; [discriminate|]. set (defs := d0 :: ds) in *.
  destruct (mapM convert_def defs) as [c0|] eqn:E; [|discriminate].
  pose proof (convert_defs_names _ _ E) as Q.
  destruct (process_cons_spec _ _ _ ltac:(rewrite Q; exact ND) H) as [-> J]. rewrite Q in J.
  split; [|split; [|exact J]].
  - rewrite <- Q. clear. induction c0 as [|x xs IH]; [reflexivity|]. cbn [map]. rewrite !fmap_cons, IH, effs_name. reflexivity.
  - apply mapM_Some in E. clearbody defs. clear -E.
    assert (G : forall d c, convert_def d = Some c -> declared_col defs cons d (effs cons c)).
    { intros d c P. pose proof (convert_def_name _ _ P) as N.
      destruct (convert_def_spec _ _ P) as (ty & l & p & s & _ & _ & O).
      destruct (parse_options_flags _ _ _ O) as (A & B & C). destruct (parse_options_check _ _ _ O) as (D1 & D2).
      destruct (parse_options_fk _ _ _ O) as (F1 & F2). pose proof (parse_options_fk1 _ _ _ O) as F3.
      destruct (effs_flags cons c) as (A' & B' & C' & D'). destruct (effs_fk cons c) as (F1' & F2').
      rewrite N in *. cbn [r_pk r_notnull r_unique r_check r_fk] in *.
      unfold declared_col. split; [rewrite effs_name; exact N|].
      split; [rewrite A', A; intuition congruence|].
      pose proof (parse_options_null _ _ _ O) as CN.
      split.
      { intros NN. rewrite B'. destruct (elem_of_list_dec_null (cd_opts d)) as [I|I].
        - destruct (NN I) as [I1 I2]. cbn [r_notnull] in CN. split; [|tauto].
          intros [R|R]; [|auto]. specialize (CN I1 I2 R). discriminate.
        - rewrite (C I). clear. assert (false <> true) by discriminate. tauto. }
      split; [rewrite C', B; intuition congruence|].
      split; [intros e Z; rewrite D' in Z; apply D1 in Z; destruct Z as [Z|Z]; [discriminate|exact Z]|].
      split; [intros e Z; rewrite D'; eapply D2; eauto|].
      split; [|split; [|exact F3]].
      - intros f Z. apply F1' in Z. destruct Z as [Z|(_ & _ & Z)]; [|auto].
        apply F1 in Z. destruct Z as [Z|Z]; [discriminate|]. left. eauto.
      - intros Z. apply F2'. destruct Z as [Z|Z]; [left; apply F2; auto|right; exact Z]. }
    clear -E G. induction E as [|d c ds cs Hd _ IH]; cbn [map]; constructor; auto.
Qed.
