(** * C104: a table accepts the rows its CREATE TABLE statement allows
    * C105: a column holds the values of its declared type *)
From Coq Require Import ZArith String Lia.
From stdpp Require Import base list strings sets.
From Verif Require Import DdlSpec DdlModel DdlProofs.
Local Open Scope nat_scope.

Lemma distinct_on_ext is is' rows : (forall i, i ∈ is -> i ∈ is') -> distinct_on is rows -> distinct_on is' rows.
Proof. intros E D a b ra rb N A B H. apply (D a b ra rb N A B). intros i I. apply H, E, I. Qed.

Lemma at_name_ex names ns : (forall n, n ∈ ns -> n ∈ names) -> exists is, Forall2 (at_name names) ns is.
Proof.
  induction ns as [|n ns IH]; intros H; [exists []; constructor|].
  destruct IH as [is F]; [intros m M; apply H, elem_of_list_further, M|].
  destruct (elem_of_list_lookup_1 names n (H n (elem_of_list_here _ _))) as [i I].
  exists (i :: is). constructor; assumption.
Qed.
Lemma at_name_in names ns is : NoDup names -> Forall2 (at_name names) ns is ->
  forall i n, at_name names n i -> (i ∈ is <-> n ∈ ns).
Proof.
  intros ND F i n A. split; intros I.
  - apply elem_of_list_lookup_1 in I as [k K]. destruct (Forall2_lookup_r _ _ _ _ _ F K) as (m & M & B).
    unfold at_name in *. rewrite A in B. injection B as <-. eapply elem_of_list_lookup_2, M.
  - apply elem_of_list_lookup_1 in I as [k K]. destruct (Forall2_lookup_l _ _ _ _ _ F K) as (j & J & B).
    unfold at_name in *. rewrite (NoDup_lookup _ _ _ _ ND A B). eapply elem_of_list_lookup_2, J.
Qed.

Section c104.
  Context (passes : string -> list string -> srow -> bool).
  Context (db : string -> option (list string * list srow)).

  (** For every plain declaration that is accepted, the recorded schema allows exactly the rows that the
      declaration allows, whatever the rows, the checks and the other tables. *)
  Theorem c104_constraints_partial defs cons cols rows :
    plain defs cons -> create_table defs cons = Some cols ->
    (recorded_ok passes db cols rows <-> declared_ok passes db defs cons rows).
  Proof.
    intros (ND & PN & PC & PF & PT & PK) CT.
    destruct (create_spec _ _ _ ND CT) as (NM & F & EX).
    unfold recorded_ok, declared_ok. rewrite NM.
    assert (NI : forall i d, defs !! i = Some d -> at_name (cd_name <$> defs) (cd_name d) i).
    { intros i d H. unfold at_name. rewrite list_lookup_fmap, H. reflexivity. }
    assert (IN : forall i n, at_name (cd_name <$> defs) n i -> exists d, defs !! i = Some d /\ cd_name d = n).
    { intros i n H. unfold at_name in H. rewrite list_lookup_fmap in H.
      destruct (defs !! i) as [d|]; [|discriminate]. injection H as H. eauto. }
    assert (Uniq : forall n i is, at_name (cd_name <$> defs) n i -> Forall2 (at_name (cd_name <$> defs)) [n] is -> is = [i]).
    { intros n i is A B. inversion B as [|? j ? is' Bj B' E1 E2]; subst. inversion B'; subst. f_equal.
      unfold at_name in *. eapply NoDup_lookup; eauto. }
    split.
    - intros [RK RC]. split.
      + intros i d o Hd Ho. destruct (Forall2_lookup_l _ _ _ _ _ F Hd) as (c & Hc & DC).
        destruct DC as (N & P & Q & U & K1 & K2 & F1 & F2 & F3).
        destruct (RC i c Hc) as (R1 & R2 & R3 & R4).
        pose proof (elem_of_list_lookup_2 _ _ _ Hd) as Id. specialize (Q (PN d Id)).
        destruct o as [| | | |tb rcs del upd|e|e|]; cbn [option_ok]; auto.
        * split; [apply R1, Q; auto|]. apply (RK [i]); [|discriminate].
          intros j. rewrite elem_of_list_singleton. split.
          -- intros ->. exists c. split; [exact Hc|]. apply P. auto.
          -- intros (c' & Hc' & Pc'). destruct (Forall2_lookup_r _ _ _ _ _ F Hc') as (d' & Hd' & DC').
             destruct DC' as (_ & P' & _). apply P' in Pc'. destruct PK as [[PK1 PK2]|[PK1 PK2]].
             ++ destruct Pc' as [Pc'|(ns & Pn & _)]; [|exfalso; eapply PK1; eauto]. eapply PK2; eauto.
             ++ exfalso. apply (PK1 d Id). exact Ho.
        * apply R2, U. auto.
        * apply R1, Q. auto.
        * destruct (F3 _ _ _ _ Ho) as [rc ->]. destruct F2 as [f Hf]; [left; eauto 6|].
          assert (D1 : declares_fk cons d tb rc) by (left; eauto).
          assert (D2 : declares_fk cons d (rf_table f) (rf_col f)) by (apply F1 in Hf; exact Hf).
          destruct (PF d _ _ _ _ Id D1 D2) as [-> ->]. apply R4. exact Hf.
        * destruct (K2 _ Ho) as [e' Ke]. rewrite (PC d e e' Id Ho (K1 _ Ke)). apply R3. exact Ke.
      + intros c Hc. specialize (PT c Hc). destruct c as [ns|ns|ns tb rcs del upd|e|]; cbn [con_ok]; [| | |destruct PT|exact I].
        * destruct (at_name_ex (cd_name <$> defs) ns) as [is Fi]; [intros n In; apply (EX _ _ Hc In)|].
          exists is. split; [exact Fi|].
          assert (KS : forall i, i ∈ is <-> exists c, cols !! i = Some c /\ r_pk c = true).
          { intros i. split.
            - intros Ii. apply elem_of_list_lookup_1 in Ii as [k K].
              destruct (Forall2_lookup_r _ _ _ _ _ Fi K) as (n & Hn & A).
              destruct (IN _ _ A) as (d & Hd & Nd). destruct (Forall2_lookup_l _ _ _ _ _ F Hd) as (c' & Hc' & DC).
              exists c'. split; [exact Hc'|]. apply DC. right. exists ns. split; [exact Hc|].
              rewrite Nd. eapply elem_of_list_lookup_2, Hn.
            - intros (c' & Hc' & Pc'). destruct (Forall2_lookup_r _ _ _ _ _ F Hc') as (d & Hd & DC).
              destruct DC as (_ & P & _). apply P in Pc'. apply (at_name_in _ _ _ ND Fi i (cd_name d) (NI _ _ Hd)).
              destruct PK as [[PK1 PK2]|[PK1 PK2]]; [exfalso; eapply PK1; eauto|].
              destruct Pc' as [Pc'|(ns' & Pn & I')].
              + exfalso. apply (PK1 d); [eapply elem_of_list_lookup_2, Hd|exact Pc'].
              + rewrite (PK2 _ _ Hc Pn). exact I'. }
          split.
          -- intros i Ii. apply elem_of_list_lookup_1 in Ii as [k K].
             destruct (Forall2_lookup_r _ _ _ _ _ Fi K) as (n & Hn & A).
             destruct (IN _ _ A) as (d & Hd & Nd). destruct (Forall2_lookup_l _ _ _ _ _ F Hd) as (c' & Hc' & DC).
             apply (RC i c' Hc'). apply DC; [apply PN; eapply elem_of_list_lookup_2, Hd|]. right. exists ns.
             split; [exact Hc|]. rewrite Nd. eapply elem_of_list_lookup_2, Hn.
          -- apply RK; [exact KS|]. intros ->. inversion Fi; subst. apply PT. reflexivity.
        * destruct ns as [|n [|? ?]]; try discriminate.
          destruct (at_name_ex (cd_name <$> defs) [n]) as [is Fi]; [intros m In; apply (EX _ _ Hc In)|].
          exists is. split; [exact Fi|]. inversion Fi as [|? i ? is' A B E1 E2]; subst. inversion B; subst.
          destruct (IN _ _ A) as (d & Hd & Nd). destruct (Forall2_lookup_l _ _ _ _ _ F Hd) as (c' & Hc' & DC).
          apply (RC i c' Hc'). apply DC. right. exists [n]. split; [exact Hc|]. rewrite Nd. apply elem_of_list_here.
        * destruct PT as [L1 L2]. destruct ns as [|n [|? ?]]; try discriminate. destruct rcs as [|rc [|? ?]]; try discriminate.
          destruct (at_name_ex (cd_name <$> defs) [n]) as [is Fi]; [intros m In; apply (EX _ _ Hc In)|].
          exists is. split; [exact Fi|]. inversion Fi as [|? i ? is' A B E1 E2]; subst. inversion B; subst.
          destruct (IN _ _ A) as (d & Hd & Nd). destruct (Forall2_lookup_l _ _ _ _ _ F Hd) as (c' & Hc' & DC).
          destruct DC as (_ & _ & _ & _ & _ & _ & F1 & F2 & _). subst n.
          destruct F2 as [f Hf]; [right; eauto 6|].
          assert (D1 : declares_fk cons d tb rc) by (right; eauto).
          assert (D2 : declares_fk cons d (rf_table f) (rf_col f)) by (apply F1 in Hf; exact Hf).
          destruct (PF d _ _ _ _ ltac:(eapply elem_of_list_lookup_2, Hd) D1 D2) as [-> ->].
          apply (RC i c' Hc'). exact Hf.
    - intros [DO DT]. split.
      + intros is IS NE. destruct PK as [[PK1 PK2]|[PK1 PK2]].
        * destruct is as [|i is]; [congruence|]. destruct (proj1 (IS i)) as (c & Hc & Pc); [apply elem_of_list_here|].
          destruct (Forall2_lookup_r _ _ _ _ _ F Hc) as (d & Hd & DC). apply DC in Pc.
          destruct Pc as [Pc|(ns & Pn & _)]; [|exfalso; eapply PK1; eauto].
          destruct (DO i d OPk Hd Pc) as [_ D]. eapply distinct_on_ext; [|exact D].
          intros j ->%elem_of_list_singleton. apply elem_of_list_here.
        * destruct is as [|i is]; [congruence|]. destruct (proj1 (IS i)) as (c & Hc & Pc); [apply elem_of_list_here|].
          destruct (Forall2_lookup_r _ _ _ _ _ F Hc) as (d & Hd & DC). apply DC in Pc.
          destruct Pc as [Pc|(ns & Pn & _)]; [exfalso; eapply (PK1 d); [eapply elem_of_list_lookup_2, Hd|exact Pc]|].
          destruct (DT _ Pn) as (is' & Fi & _ & D). eapply distinct_on_ext; [|exact D].
          intros j Ij. apply IS. apply elem_of_list_lookup_1 in Ij as [k K].
          destruct (Forall2_lookup_r _ _ _ _ _ Fi K) as (n & Hn & A).
          destruct (IN _ _ A) as (d' & Hd' & Nd). destruct (Forall2_lookup_l _ _ _ _ _ F Hd') as (c' & Hc' & DC').
          exists c'. split; [exact Hc'|]. apply DC'. right. exists ns. split; [exact Pn|].
          rewrite Nd. eapply elem_of_list_lookup_2, Hn.
      + intros i c Hc. destruct (Forall2_lookup_r _ _ _ _ _ F Hc) as (d & Hd & DC).
        destruct DC as (N & P & Q & U & K1 & K2 & F1 & F2 & F3).
        pose proof (elem_of_list_lookup_2 _ _ _ Hd) as Id. specialize (Q (PN d Id)).
        split; [|split; [|split]].
        * intros R. apply Q in R. destruct R as [[R|R]|(ns & Pn & In)].
          -- apply (DO i d OPk Hd R).
          -- apply (DO i d ONotNull Hd R).
          -- destruct (DT _ Pn) as (is & Fi & D & _). apply D. apply (at_name_in _ _ _ ND Fi i (cd_name d) (NI _ _ Hd)). exact In.
        * intros R. apply U in R. destruct R as [R|(ns & Pn & In)]; [apply (DO i d OUnique Hd R)|].
          pose proof (PT _ Pn) as L. cbn in L. destruct ns as [|n [|? ?]]; try discriminate.
          apply elem_of_list_singleton in In. destruct (DT _ Pn) as (is & Fi & D).
          rewrite (Uniq n i is ltac:(rewrite <- In; apply NI; exact Hd) Fi) in D. exact D.
        * intros e R. apply K1 in R. apply (DO i d (OCheck e) Hd R).
        * intros f R. apply F1 in R. destruct R as [(del & upd & R)|(del & upd & R)].
          -- apply (DO i d _ Hd R).
          -- destruct (DT _ R) as (is & Fi & D). rewrite (Uniq _ i is (NI _ _ Hd) Fi) in D. exact D.
  Qed.

  (** A key, UNIQUE or one-column FOREIGN KEY constraint on a column that is not declared is refused. *)
  Theorem c104_unknown_column_refused defs cons cols c n :
    NoDup (cd_name <$> defs) -> create_table defs cons = Some cols -> c ∈ cons ->
    match c with
    | TPk ns | TUnique ns => n ∈ ns
    | TFk ns _ rcs _ _ => ns = [n] /\ length rcs = 1
    | _ => False
    end ->
    n ∈ (cd_name <$> defs).
  Proof.
    intros ND CT Hc H. destruct (create_spec _ _ _ ND CT) as (_ & _ & EX). apply (EX c n Hc).
    destruct c as [ns|ns|ns tb rcs del upd|e|]; [exact H|exact H| |destruct H|destruct H].
    destruct H as [-> L]. destruct rcs as [|rc [|? ?]]; try discriminate. apply elem_of_list_here.
  Qed.

  (** ** The full statement is false *)

  (** UNIQUE (a, b) is recorded as UNIQUE (a) and UNIQUE (b): legal rows become illegal. *)
  Theorem c104_composite_unique_refuted a b ta tb cols :
    a <> b -> create_table [CD a ta []; CD b tb []] [TUnique [a; b]] = Some cols ->
    let rows := [[Some 1%Z; Some 1%Z]; [Some 1%Z; Some 2%Z]] in
    declared_ok passes db [CD a ta []; CD b tb []] [TUnique [a; b]] rows /\ ~ recorded_ok passes db cols rows.
  Proof.
    intros AB CT rows.
    assert (ND : NoDup (cd_name <$> [CD a ta []; CD b tb []])).
    { cbn. apply NoDup_cons. split; [rewrite elem_of_list_singleton; exact AB|apply NoDup_singleton]. }
    destruct (create_spec _ _ _ ND CT) as (NM & F & EX). split.
    - split.
      + intros i d o Hd Ho. destruct i as [|[|i]]; cbn in Hd; try discriminate; injection Hd as <-; inversion Ho.
      + intros c ->%elem_of_list_singleton. cbn [con_ok]. exists [0; 1]. split.
        { repeat constructor. }
        intros i j ra rb N A B H. destruct i as [|[|i]]; cbn in A; try discriminate; injection A as <-;
          (destruct j as [|[|j]]; cbn in B; try discriminate; injection B as <-); try congruence;
          destruct (H 1 ltac:(set_solver)) as (v & V1 & V2); cbn in V1, V2; congruence.
    - intros [_ R]. inversion F as [|? c1 ? cs D1 F' E1 E2]; subst. destruct (R 0 c1 eq_refl) as (_ & R2 & _).
      assert (U : r_unique c1 = true).
      { apply D1. right. exists [a; b]. split; [apply elem_of_list_here|]. cbn. apply elem_of_list_here. }
      apply (R2 U 0 1 _ _ ltac:(discriminate) eq_refl eq_refl).
      intros i ->%elem_of_list_singleton. exists 1%Z. split; reflexivity.
  Qed.

  Lemma process_app cs1 cs2 : forall cols,
    process_cons cols (cs1 ++ cs2) = match process_cons cols cs1 with Some cols => process_cons cols cs2 | None => None end.
  Proof.
    induction cs1 as [|c cs IH]; intros cols; [reflexivity|]. cbn [app process_cons].
    destruct (process_con cols c); [apply IH|reflexivity].
  Qed.
  (** A CHECK of the table, and a FOREIGN KEY over several columns, change nothing: the schema is the one
      without the constraint. *)
  Theorem c104_table_check_refuted defs cons1 cons2 e :
    create_table defs (cons1 ++ TCheck e :: cons2) = create_table defs (cons1 ++ cons2).
  Proof.
    unfold create_table. destruct defs; [reflexivity|]. destruct (mapM _ _); [|reflexivity].
    rewrite !process_app. destruct (process_cons l cons1); reflexivity.
  Qed.
  Theorem c104_composite_fk_refuted defs cons1 cons2 ns tb rcs del upd :
    length ns <> 1 \/ length rcs <> 1 ->
    create_table defs (cons1 ++ TFk ns tb rcs del upd :: cons2) = create_table defs (cons1 ++ cons2).
  Proof.
    intros H. unfold create_table. destruct defs; [reflexivity|]. destruct (mapM _ _); [|reflexivity].
    rewrite !process_app. destruct (process_cons l cons1) as [cols|]; [|reflexivity]. cbn [process_cons].
    replace (process_con cols (TFk ns tb rcs del upd)) with (Some cols); [reflexivity|].
    destruct ns as [|n [|? ?]]; try reflexivity. destruct rcs as [|rc [|? ?]]; try reflexivity. cbn in H. lia.
  Qed.
  (** ON DELETE and ON UPDATE of a FOREIGN KEY of the table are lost. *)
  Theorem c104_fk_actions_refuted defs cons1 cons2 ns tb rcs del upd del' upd' :
    create_table defs (cons1 ++ TFk ns tb rcs del upd :: cons2) = create_table defs (cons1 ++ TFk ns tb rcs del' upd' :: cons2).
  Proof.
    unfold create_table. destruct defs; [reflexivity|]. destruct (mapM _ _); [|reflexivity].
    rewrite !process_app. destruct (process_cons l cons1) as [cols|]; [|reflexivity]. reflexivity.
  Qed.
  (** As written on a column they are kept: the last foreign key of the options is recorded with its
      actions. *)
  Theorem c104_fk_actions_column n t os tb rc del upd cols :
    create_table [CD n t (os ++ [OFk tb [rc] del upd])] [] = Some cols ->
    exists c, cols = [c] /\ r_fk c = Some (RFk tb rc del upd).
  Proof.
    cbn [create_table mapM]. destruct (convert_def _) as [c|] eqn:E; [|discriminate]. cbn. intros [= <-].
    exists c. split; [reflexivity|]. apply convert_def_spec in E. cbn in E. destruct E as (ty & l & p & s & _ & _ & E).
    revert E. generalize (RC n ty l p s false false false None None None). clear.
    induction os as [|o os IH]; intros c0 E.
    - cbn in E. destruct c0. injection E as <-. reflexivity.
    - cbn [app parse_options] in E. destruct (parse_option c0 o); [|discriminate]. eapply IH, E.
  Qed.
  (** Of two checks of a column the first is lost. *)
  Theorem c104_second_check_refuted n t e1 e2 :
    create_table [CD n t [OCheck e1; OCheck e2]] [] = create_table [CD n t [OCheck e2]] [].
  Proof.
    cbn [create_table mapM]. unfold convert_def. cbn [cd_type cd_name cd_opts].
    destruct (convert_type t); [|reflexivity]. destruct (type_params t _) as [[[l p] s]|]; reflexivity.
  Qed.
  (** PRIMARY KEY NULL leaves a key that may be NULL, any number of times. *)
  Theorem c104_primary_key_null_refuted n t cols k :
    create_table [CD n t [OPk; ONull]] [] = Some cols ->
    recorded_ok passes db cols (repeat [None] (S k)) /\ ~ declared_ok passes db [CD n t [OPk; ONull]] [] (repeat [None] (S k)).
  Proof.
    cbn [create_table mapM]. unfold convert_def. cbn [cd_type cd_name cd_opts].
    destruct (convert_type t) as [ty|]; [|discriminate]. destruct (type_params t ty) as [[[l p] s]|]; [|discriminate].
    cbn. intros [= <-].
    assert (A : forall (a : nat) ra, (([None] : srow) :: repeat [None] k) !! a = Some ra -> ra = [None]).
    { intros a ra H. apply elem_of_list_lookup_2, elem_of_cons in H. destruct H as [H|H]; [exact H|].
      apply elem_of_list_In, repeat_spec in H. exact H. }
    split.
    - split.
      + intros is IS NE a b ra rb N Ha Hb H. destruct is as [|i is]; [congruence|].
        destruct (H i (elem_of_list_here _ _)) as (v & V & _). rewrite (A _ _ Ha) in V. destruct i as [|i]; discriminate.
      + intros i c Hc. destruct i as [|i]; [|discriminate]. injection Hc as <-. cbn. repeat split; try discriminate.
    - intros [D _]. destruct (D 0 _ OPk eq_refl (elem_of_list_here _ _)) as [FL _].
      destruct (FL [None] (elem_of_list_here _ _)) as (v & V). discriminate.
  Qed.
End c104.

(** A plain declaration with every kind of constraint, accepted, and what it records. *)
Local Open Scope string_scope.
Definition ddl_defs : list cdef :=
  [CD "id" QInt []; CD "k" QBigInt [ONotNull]; CD "name" (QVarchar (Some 40)) [OUnique; OCheck "name <> ''"];
   CD "dept" QInt [OFk "dept" ["id"] (Some Cascade) None; ONull]].
Definition ddl_cons : list tcon := [TPk ["id"; "k"]; TUnique ["dept"]].
Example c104_ex :
  plain ddl_defs ddl_cons /\
  (exists cols, create_table ddl_defs ddl_cons = Some cols /\
     (fun c => (r_name c, (r_pk c, r_notnull c, r_unique c), r_fk c)) <$> cols =
       [("id", (true, true, false), None); ("k", (true, true, false), None); ("name", (false, false, true), None);
        ("dept", (false, false, true), Some (RFk "dept" "id" (Some Cascade) None))]) /\
  declared_ok (fun _ _ _ => true) (fun t => if String.eqb t "dept" then Some (["id"], [[Some 7%Z]]) else None)
    ddl_defs ddl_cons [[Some 1%Z; Some 1%Z; Some 5%Z; Some 7%Z]; [Some 1%Z; Some 2%Z; None; None]].
Proof.
  assert (M : forall (P : cdef -> Prop), P (CD "id" QInt []) -> P (CD "k" QBigInt [ONotNull]) ->
    P (CD "name" (QVarchar (Some 40)) [OUnique; OCheck "name <> ''"]) ->
    P (CD "dept" QInt [OFk "dept" ["id"] (Some Cascade) None; ONull]) -> forall d, d ∈ ddl_defs -> P d).
  { intros P H1 H2 H3 H4 d I. unfold ddl_defs in I. rewrite !elem_of_cons, elem_of_nil in I.
    destruct I as [-> | [-> | [-> | [-> | []]]]]; assumption. }
  assert (O : forall (P : copt -> Prop) o, o ∈ [OFk "dept" ["id"] (Some Cascade) None; ONull] ->
     P (OFk "dept" ["id"] (Some Cascade) None) -> P ONull -> P o).
  { intros P o I. rewrite !elem_of_cons, elem_of_nil in I. destruct I as [-> | [-> | []]]; auto. }
  split; [|split].
  - split; [|split; [|split; [|split; [|split]]]].
    + unfold ddl_defs. rewrite !fmap_cons, fmap_nil. cbn [cd_name]. repeat (apply NoDup_cons; split; [set_solver|]). apply NoDup_nil_2.
    + apply (M (fun d => ONull ∈ cd_opts d -> OPk ∉ cd_opts d /\ ONotNull ∉ cd_opts d)); cbn; set_solver.
    + intros d e e' Hd. revert d Hd e e'. apply (M (fun d => forall e e', OCheck e ∈ cd_opts d -> OCheck e' ∈ cd_opts d -> e = e'));
        cbn; set_solver.
    + assert (Q : forall d, d ∈ ddl_defs -> forall tb rc, declares_fk ddl_cons d tb rc -> tb = "dept" /\ rc = "id").
      { apply (M (fun d => forall tb rc, declares_fk ddl_cons d tb rc -> tb = "dept" /\ rc = "id"));
          intros tb rc [(del & upd & H)|(del & upd & H)]; cbn in H; try (set_solver). }
      intros d tb rc tb' rc' Hd H H'. destruct (Q d Hd _ _ H) as [-> ->]. destruct (Q d Hd _ _ H') as [-> ->]. auto.
    + intros c Hc. unfold ddl_cons in Hc. rewrite !elem_of_cons, elem_of_nil in Hc. destruct Hc as [-> | [-> | []]]; [discriminate|reflexivity].
    + right. split; [apply (M (fun d => OPk ∉ cd_opts d)); cbn; set_solver|]. intros ns ns' H H'. unfold ddl_cons in *. set_solver.
  - eexists. split; vm_compute; reflexivity.
  - assert (DI : forall is ra rb (rows : list srow), rows = [ra; rb] ->
       (exists i, i ∈ is /\ forall v : Z, ~ (ra !! i = Some (Some v) /\ rb !! i = Some (Some v))) -> distinct_on is rows).
    { intros is ra rb rows -> (i & Ii & N) a b x y AB A B H. destruct (H i Ii) as (v & V1 & V2).
      destruct a as [|[|a]]; cbn in A; try discriminate; injection A as <-;
        (destruct b as [|[|b]]; cbn in B; try discriminate; injection B as <-); try congruence; apply (N v); auto. }
    split.
    + intros i d o Hd Ho.
      destruct i as [|[|[|[|i]]]]; cbn in Hd; try discriminate; injection Hd as <-; cbn [cd_opts] in Ho.
      * inversion Ho.
      * apply elem_of_list_singleton in Ho as ->. cbn. intros r Hr. rewrite !elem_of_cons, elem_of_nil in Hr.
        destruct Hr as [-> | [-> | []]]; eauto.
      * rewrite !elem_of_cons, elem_of_nil in Ho. destruct Ho as [-> | [-> | []]]; cbn; [|reflexivity].
        eapply DI; [reflexivity|]. exists 2. split; [set_solver|]. cbn. intros v [_ V]. discriminate.
      * revert Ho. intros Ho. apply (O (fun o => option_ok _ _ _ _ o _) _ Ho); cbn; [|exact I].
        intros r Hr. rewrite !elem_of_cons, elem_of_nil in Hr. destruct Hr as [-> | [-> | []]].
        -- right. exists ["id"], [[Some 7%Z]], [Some 7%Z]. split; [reflexivity|]. split; [set_solver|].
           constructor; [|constructor]. exists 0. split; reflexivity.
        -- left. exists 3. split; [set_solver|reflexivity].
    + intros c Hc. unfold ddl_cons in Hc. rewrite !elem_of_cons, elem_of_nil in Hc. destruct Hc as [-> | [-> | []]]; cbn [con_ok].
      * exists [0; 1]. split; [repeat constructor|]. split.
        -- intros i Ii r Hr. rewrite !elem_of_cons, elem_of_nil in Ii. rewrite !elem_of_cons, elem_of_nil in Hr.
           destruct Ii as [-> | [-> | []]]; destruct Hr as [-> | [-> | []]]; eauto.
        -- eapply DI; [reflexivity|]. exists 1. split; [set_solver|]. cbn. intros v [V1 V2]. congruence.
      * exists [3]. split; [repeat constructor|]. eapply DI; [reflexivity|]. exists 3. split; [set_solver|].
        cbn. intros v [_ V]. discriminate.
Qed.

(** ** C105: declared types *)
Local Open Scope Z_scope.

(** Whether every value of the declared integer type is one of the stored type. *)
Definition type_fits (t : sqltype) (ty : tyid) : Prop := forall z, in_rng (sql_range t) z -> in_rng (stored_range ty) z.

(** The signed types of up to 64 bits (and SQL's MEDIUMINT, signed or not) hold every value of their declaration. *)
Theorem c105_integer_types_partial t :
  t ∈ [QTinyInt; QSmallInt; QInt; QInteger; QBigInt; QInt2; QMediumInt; QInt4; QInt8; QInt16; QInt32; QInt64; QMediumIntUnsigned] ->
  exists ty, convert_type t = Some ty /\ type_fits t ty.
Proof.
  intros H. rewrite !elem_of_cons, elem_of_nil in H.
  repeat (destruct H as [-> | H]; [eexists; split; [reflexivity|]; unfold type_fits, in_rng; cbn; intros; lia|]). destruct H.
Qed.

(** No other integer type does: the upper half of every unsigned type, all of the wider types beyond 64
    bits, and SIGNED beyond 32, are accepted as declarations and cannot be stored. *)
Theorem c105_integer_types_refuted t r :
  sql_range t = Some r ->
  t ∉ [QTinyInt; QSmallInt; QInt; QInteger; QBigInt; QInt2; QMediumInt; QInt4; QInt8; QInt16; QInt32; QInt64; QMediumIntUnsigned] ->
  exists ty, convert_type t = Some ty /\ ~ type_fits t ty /\ in_rng (sql_range t) (snd r) /\ ~ in_rng (stored_range ty) (snd r).
Proof.
  intros H N. rewrite !not_elem_of_cons in N.
  destruct t; cbn in H; try discriminate; injection H as <-; try (exfalso; intuition congruence);
    (eexists; split; [reflexivity|]; split; [|split; [cbn; lia|cbn; lia]]);
    intros F; match goal with |- _ =>
      first [specialize (F 255 ltac:(cbn; lia)); cbn in F; lia
            |specialize (F 65535 ltac:(cbn; lia)); cbn in F; lia
            |specialize (F 4294967295 ltac:(cbn; lia)); cbn in F; lia
            |specialize (F 18446744073709551615 ltac:(cbn; lia)); cbn in F; lia] end.
Qed.

(** The length of a character column is not recorded: 255 for every VARCHAR(n), 1 for every CHAR(n). *)
Theorem c105_length_refuted n (opts : list copt) c :
  (convert_def (CD n (QVarchar None) opts) = Some c -> r_len c = 255%nat) /\
  forall k, (convert_def (CD n (QVarchar (Some k)) opts) = Some c -> r_len c = 255%nat) /\
            (convert_def (CD n (QString (Some k)) opts) = Some c -> r_len c = 255%nat) /\
            (convert_def (CD n (QChar (Some k)) opts) = Some c -> r_len c = 1%nat).
Proof.
  assert (G : forall t l p s ty, convert_type t = Some ty -> type_params t ty = Some (l, p, s) ->
    convert_def (CD n t opts) = Some c -> r_len c = l).
  { intros t l p s ty T P H. apply convert_def_spec in H. cbn in H. destruct H as (ty' & l' & p' & s' & T' & P' & O).
    rewrite T in T'. injection T' as <-. rewrite P in P'. injection P' as <- _ _. apply parse_options_base in O. tauto. }
  split; [|intros k; split; [|split]]; (eapply G; [reflexivity|reflexivity]).
Qed.

(** Precision and scale of DECIMAL and NUMERIC are recorded as written, and a declaration is refused
    exactly when they exceed 255, the scale is negative or it exceeds the precision. *)
Theorem c105_precision n (opts : list copt) p s t :
  t = QDecimal (Some (p, s)) \/ t = QNumeric (Some (p, s)) ->
  let legal := (p <= 255)%N /\ match s with Some s => 0 <= s <= Z.of_N p | None => True end in
  (forall c, convert_def (CD n t opts) = Some c ->
     r_type c = IDecimal /\ r_prec c = Some p /\ r_scale c = match s with Some s => Some (Z.to_N s) | None => None end) /\
  (convert_def (CD n t []) = None <-> ~ legal).
Proof.
  intros Ht legal.
  assert (P : (legal /\ precision_scale (Some (p, s)) = Some (Some p, match s with Some s => Some (Z.to_N s) | None => None end)) \/
              (~ legal /\ precision_scale (Some (p, s)) = None)).
  { unfold legal, precision_scale. destruct s as [s|].
    - destruct (N.ltb_spec 255 p); [right; split; [lia|reflexivity]|].
      destruct (Z.ltb_spec s 0); cbn [orb]; [right; split; [lia|reflexivity]|].
      destruct (Z.ltb_spec 255 s); [right; split; [lia|reflexivity]|].
      destruct (N.ltb_spec p (Z.to_N s)); [right; split; [lia|reflexivity]|]. left. split; [lia|reflexivity].
    - destruct (N.ltb_spec 255 p); [right; split; [lia|reflexivity]|]. left. split; [lia|reflexivity]. }
  assert (T : convert_type t = Some IDecimal /\
     type_params t IDecimal = match precision_scale (Some (p, s)) with Some (a, b) => Some (8%nat, a, b) | None => None end).
  { destruct Ht as [-> | ->]; split; reflexivity. }
  destruct T as [T1 T2]. split.
  - intros c H. apply convert_def_spec in H. cbn in H. destruct H as (ty & l & p' & s' & T' & P' & O).
    rewrite T1 in T'. injection T' as <-. rewrite T2 in P'. apply parse_options_base in O. cbn in O.
    destruct P as [[_ P]|[_ P]]; rewrite P in P'; [|discriminate]. injection P' as <- <- <-. intuition congruence.
  - unfold convert_def. cbn [cd_type cd_name cd_opts]. rewrite T1, T2. destruct P as [[L P]|[L P]]; rewrite P; cbn.
    + split; [discriminate|]. tauto.
    + tauto.
Qed.
Example c105_ex :
  convert_type QIntUnsigned = Some IInteger /\ in_rng (sql_range QIntUnsigned) 3000000000 /\ ~ in_rng (stored_range IInteger) 3000000000 /\
  (r_prec <$> convert_def (CD "x" (QDecimal (Some (10%N, Some 2))) [])) = Some (Some 10%N) /\
  convert_def (CD "x" (QDecimal (Some (2%N, Some 10))) []) = None.
Proof. split; [reflexivity|]. split; [cbn; lia|]. split; [cbn; lia|]. split; vm_compute; reflexivity. Qed.

Print Assumptions c104_constraints_partial.
Print Assumptions c104_unknown_column_refused.
Print Assumptions c104_composite_unique_refuted.
Print Assumptions c104_table_check_refuted.
Print Assumptions c104_composite_fk_refuted.
Print Assumptions c104_fk_actions_refuted.
Print Assumptions c104_fk_actions_column.
Print Assumptions c104_second_check_refuted.
Print Assumptions c104_primary_key_null_refuted.
Print Assumptions c105_integer_types_partial.
Print Assumptions c105_integer_types_refuted.
Print Assumptions c105_length_refuted.
Print Assumptions c105_precision.
