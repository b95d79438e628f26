(** C124: a statement that reports success has done what it says. *)
From Coq Require Import NArith Ascii String Lia.
From stdpp Require Import list gmap.
From Verif Require Import CmdSpec CmdModel CmdProofs.

(** ** What holds *)

Theorem c124_create_partial w n ine : one_word n -> (dbs w !! n = None \/ ine = true) ->
  obeyed (CreateDatabase [n] ine) w (run (CreateDatabase [n] ine) w).1 (run (CreateDatabase [n] ine) w).2.
Proof.
  intros O H. rewrite (run_create [n] ine w n []); [|exact (words_word n O)|right; reflexivity].
  cbn [fst snd obeyed]. unfold create_database. destruct (dbs w !! n) eqn:E.
  - destruct H as [H|H]; [discriminate|]. subst ine. split; [eauto|reflexivity].
  - split; [eauto|reflexivity].
Qed.

Theorem c124_use_partial w n k : one_word n -> is_Some (dbs w !! n) -> k = UDatabase \/ k = UObject ->
  obeyed (Use k [n]) w (run (Use k [n]) w).1 (run (Use k [n]) w).2.
Proof.
  intros O [ts E] K. rewrite (run_use k [n] w n []); [|tauto|exact (words_word n O)].
  cbn [fst snd]. unfold use_database. rewrite E. cbn [snd].
  destruct K as [-> | ->]; cbn [obeyed]; rewrite E; (split; [eauto|reflexivity]).
Qed.

Theorem c124_rollback w : obeyed (Rollback None) w (run (Rollback None) w).1 (run (Rollback None) w).2.
Proof. split; [eexists _, _; reflexivity|reflexivity]. Qed.

(** What is refused is refused with nothing changed; and this is refused. *)
Theorem c124_refused w :
  (forall c, (run c w).1 = Refused -> (run c w).2 = w) /\
  (forall n, (run (Drop n) w).1 = Refused) /\
  (forall k n, k = UWarehouse \/ k = URole \/ k = USecondaryRoles \/ k = UDefault -> (run (Use k n) w).1 = Refused) /\
  (forall v cols ine, (run (CreateView v cols None ine) w).1 = Refused) /\
  (forall v cols q ts, tables w = Some ts -> is_Some (ts !! v) -> (run (CreateView v cols q false) w).1 = Refused) /\
  (forall v cols q ts, tables w = Some ts -> ts !! v = None -> (run (AlterView v cols q) w).1 = Refused).
Proof.
  split; [|split; [|split; [|split; [|split]]]].
  - intros c. unfold run. destruct (plan_of c w) as [[t| |]|]; [|discriminate|discriminate|reflexivity].
    destruct (execute_command t w). discriminate.
  - reflexivity.
  - intros k n [->|[->|[->| ->]]]; reflexivity.
  - intros v cols ine. unfold run. cbn [plan_of]. destruct (tables w ≫= _); [destruct ine|]; reflexivity.
  - intros v cols q ts T [x E]. unfold run. cbn [plan_of]. rewrite T. cbn [mbind option_bind]. rewrite E. reflexivity.
  - intros v cols q ts T E. unfold run. cbn [plan_of]. rewrite T. cbn [mbind option_bind]. rewrite E. reflexivity.
Qed.

(** No command but CREATE DATABASE and USE touches the catalog, and none of them at all but
    a rollback and a write touches the rows. *)
Definition is_create_or_use (c : command) : Prop :=
  match c with CreateDatabase _ _ | Use _ _ => True | _ => False end.
Definition is_rows (c : command) : Prop := match c with Rollback _ | Write _ => True | _ => False end.
Lemma inert c w : ~ is_create_or_use c -> ~ is_rows c -> (run c w).2 = w /\
  ((run c w).1 = Refused \/ (run c w).1 = Done true []).
Proof.
  intros H1 H2. unfold run. destruct c; cbn in H1, H2; try (exfalso; tauto); cbn [plan_of].
  - rewrite inert_schema. split; [reflexivity|right; reflexivity].
  - destruct cs as [|x cs]; [split; [reflexivity|left; reflexivity]|].
    rewrite inert_alter_table. split; [reflexivity|right; reflexivity].
  - destruct (tables w ≫= _); [destruct if_not_exists; [destruct q|]|destruct q; [case_decide|]];
      try (split; [reflexivity|left; reflexivity]);
      rewrite inert_view; (split; [reflexivity|right; reflexivity]).
  - destruct (tables w ≫= _); [destruct q; [case_decide|]|]; try (split; [reflexivity|left; reflexivity]).
    rewrite inert_alter_view. split; [reflexivity|right; reflexivity].
  - rewrite inert_show. split; [reflexivity|right; reflexivity].
  - rewrite inert_show_dbs. split; [reflexivity|right; reflexivity].
  - destruct t; [|split; [reflexivity|left; reflexivity]].
    rewrite inert_show. split; [reflexivity|right; reflexivity].
  - rewrite inert_save. split; [reflexivity|right; reflexivity].
  - rewrite inert_release. split; [reflexivity|right; reflexivity].
  - split; [reflexivity|left; reflexivity].
Qed.
Theorem c124_no_other_effect c w :
  (~ is_create_or_use c -> dbs (run c w).2 = dbs w /\ cur (run c w).2 = cur w) /\
  (~ is_rows c -> now (run c w).2 = now w /\ start (run c w).2 = start w).
Proof.
  split; intros H.
  - destruct c; cbn in H; try tauto; try (match goal with |- context [run ?c w] =>
      destruct (inert c w) as [-> _]; [cbn; tauto|cbn; tauto|split; reflexivity] end);
      split; reflexivity.
  - assert (D : forall s, now (execute_command s w).2 = now w /\ start (execute_command s w).2 = start w).
    { intros s. unfold execute_command, execute_create_database, execute_use_database, create_database, use_database.
      repeat case_match; split; reflexivity. }
    unfold run. destruct (plan_of c w) as [[t|to|r]|] eqn:E; [| | |split; reflexivity].
    + specialize (D t). destruct (execute_command t w) as [b w']. exact D.
    + exfalso. destruct c; cbn in H; try tauto; cbn [plan_of] in E;
        repeat match type of E with context [match ?x with _ => _ end] => destruct x end; discriminate.
    + exfalso. destruct c; cbn in H; try tauto; cbn [plan_of] in E;
        repeat match type of E with context [match ?x with _ => _ end] => destruct x end; discriminate.
Qed.

(** ** What does not *)

Lemma changes t cols c ts ts' : ts !! t = Some cols -> change_tables t cols c ts = Some ts' -> ts' <> ts.
Proof.
  intros T E X. subst ts'. destruct c; cbn [change_tables] in E.
  - case_decide; [discriminate|]. injection E as E. rewrite <- E in T at 1. rewrite lookup_insert in T.
    injection T as T. apply (f_equal length) in T. rewrite app_length in T. cbn in T. lia.
  - case_decide as D; [|discriminate]. injection E as E. rewrite <- E in T at 1. rewrite lookup_insert in T.
    injection T as T. rewrite <- T in D at 1. apply elem_of_list_filter in D. tauto.
  - case_decide as D; [|discriminate]. destruct D as [D1 D2]. injection E as E. rewrite <- E in T at 1.
    rewrite lookup_insert in T. injection T as T. apply D2. rewrite <- T at 1.
    apply elem_of_list_fmap. exists a. rewrite decide_True by reflexivity. split; [reflexivity|assumption].
  - destruct (ts !! n) eqn:N; [discriminate|]. injection E as E.
    rewrite <- E in N at 1. rewrite lookup_insert in N. discriminate.
  - discriminate.
Qed.

(** Every ALTER TABLE reports success and does nothing: no change is ever made, and a table that
    is not there can be altered. *)
Theorem c124_alter_refuted w t c cs :
  run (AlterTable t (c :: cs)) w = (Done true [], w) /\ ~ obeyed (AlterTable t [c]) w (Done true []) w.
Proof.
  split.
  { destruct (inert (AlterTable t (c :: cs)) w) as [H1 [H|H]]; [cbn; tauto|cbn; tauto| |].
    - exfalso. unfold run in H. cbn [plan_of] in H. destruct (execute_command _ w). discriminate.
    - destruct (run (AlterTable t (c :: cs)) w). cbn in H, H1. subst. reflexivity. }
  cbn [obeyed]. destruct (tables w ≫= _) as [ts'|] eqn:E; [|intros [X _]; discriminate].
  intros [_ X]. apply bind_Some in E as (ts & T & E). apply bind_Some in E as (cols & L & E).
  apply (changes _ _ _ _ _ L E). unfold tables in T. apply bind_Some in T as (n & C & T).
  unfold with_tables in X. rewrite C in X. apply (f_equal dbs) in X. cbn [dbs] in X.
  rewrite X in T. rewrite lookup_insert in T. injection T as T. exact T.
Qed.

(** Every CREATE VIEW that is accepted reports success and creates nothing. *)
Theorem c124_view_refuted w v cols q ine ts : tables w = Some ts -> ts !! v = None ->
  (cols = [] \/ length cols = length q) ->
  run (CreateView v cols (Some q) ine) w = (Done true [], w) /\
  ~ obeyed (CreateView v cols (Some q) ine) w (Done true []) w.
Proof.
  intros T L C. split.
  { destruct (inert (CreateView v cols (Some q) ine) w) as [H1 [H|H]]; [cbn; tauto|cbn; tauto| |].
    - exfalso. unfold run in H. cbn [plan_of] in H. rewrite T in H. cbn [mbind option_bind] in H. rewrite L in H.
      rewrite decide_False in H by tauto. destruct (execute_command _ w). discriminate.
    - destruct (run _ w). cbn in H, H1. subst. reflexivity. }
  cbn [obeyed]. rewrite T. intros X. destruct (X L) as (cs & _ & Y).
  pose proof T as T'. unfold tables in T'. apply bind_Some in T' as (n & Cn & Tn).
  unfold with_tables in Y. rewrite Cn in Y. apply (f_equal dbs) in Y. cbn [dbs] in Y.
  rewrite Y, lookup_insert in Tn. injection Tn as Tn. rewrite <- Tn, lookup_insert in L. discriminate.
Qed.

(** Neither does an ALTER VIEW. *)
Theorem c124_alter_view_refuted w v cols q ts old : tables w = Some ts -> ts !! v = Some old ->
  (cols = [] \/ length cols = length q) -> run (AlterView v cols (Some q)) w = (Done true [], w).
Proof.
  intros T L C. destruct (inert (AlterView v cols (Some q)) w) as [H1 [H|H]]; [cbn; tauto|cbn; tauto| |].
  - exfalso. unfold run in H. cbn [plan_of] in H. rewrite T in H. cbn [mbind option_bind] in H. rewrite L in H.
    rewrite decide_False in H by tauto. destruct (execute_command _ w). discriminate.
  - destruct (run _ w). cbn in H, H1. subst. reflexivity.
Qed.

(** No SHOW shows anything, whatever there is to show. *)
Theorem c124_show_refuted w :
  (forall a b c d e ts, tables w = Some ts -> ts <> ∅ ->
     run (ShowTables a b c d e None) w = (Done true [], w) /\
     ~ obeyed (ShowTables a b c d e None) w (Done true []) w) /\
  (forall a b, dbs w <> ∅ ->
     run (ShowDatabases a b) w = (Done true [], w) /\ ~ obeyed (ShowDatabases a b) w (Done true []) w) /\
  (forall a b t ts cols, tables w = Some ts -> ts !! t = Some cols -> cols <> [] ->
     run (ShowColumns a b (Some t)) w = (Done true [], w) /\
     ~ obeyed (ShowColumns a b (Some t)) w (Done true []) w).
Proof.
  split; [|split].
  - intros a b c d e ts T N. split; [unfold run; cbn [plan_of]; rewrite inert_show; reflexivity|].
    cbn [obeyed]. rewrite T. intros [_ (x & rows & E & P)]. injection E as _ <-.
    apply Permutation_nil_l in P. symmetry in P. apply fmap_nil_inv in P. apply fmap_nil_inv in P.
    apply map_to_list_empty_iff in P. contradiction.
  - intros a b N. split; [unfold run; cbn [plan_of]; rewrite inert_show_dbs; reflexivity|].
    cbn [obeyed]. intros [_ (x & rows & E & P)]. injection E as _ <-.
    apply Permutation_nil_l in P. symmetry in P. apply fmap_nil_inv in P. apply fmap_nil_inv in P.
    apply map_to_list_empty_iff in P. contradiction.
  - intros a b t ts cols T L N. split; [unfold run; cbn [plan_of]; rewrite inert_show; reflexivity|].
    cbn [obeyed]. rewrite T. cbn [mbind option_bind]. rewrite L. intros [_ (x & rows & E & P)]. injection E as _ <-.
    apply Permutation_nil_l in P. symmetry in P. apply fmap_nil_inv in P. contradiction.
Qed.

(** Creating a database that is there, and using one that is not, are reported as successes. *)
Theorem c124_existing_refuted w n k : one_word n -> k = UDatabase \/ k = UObject ->
  (is_Some (dbs w !! n) -> run (CreateDatabase [n] false) w = (Done true [], w) /\
     ~ obeyed (CreateDatabase [n] false) w (Done true []) w) /\
  (dbs w !! n = None -> run (Use k [n]) w = (Done true [], w) /\ ~ obeyed (Use k [n]) w (Done true []) w).
Proof.
  intros O K. split.
  - intros [x E]. split.
    + rewrite (run_create [n] false w n []); [|exact (words_word n O)|right; reflexivity].
      unfold create_database. rewrite E. reflexivity.
    + cbn [obeyed]. rewrite E. intros [X _]. discriminate.
  - intros E. split.
    + rewrite (run_use k [n] w n []); [|tauto|exact (words_word n O)]. unfold use_database. rewrite E. reflexivity.
    + destruct K as [-> | ->]; cbn [obeyed]; rewrite E; (intros [X _]; discriminate).
Qed.

(** A name with a space in it is cut there: CREATE DATABASE and USE are about another database. *)
Theorem c124_space_refuted w n c r : one_word n -> n <> lit "IF" -> space c ->
  dbs w !! (n ++ c :: r) = None ->
  (forall ine, let '(a, w') := run (CreateDatabase [n ++ c :: r] ine) w in
     a = Done true [] /\ is_Some (dbs w' !! n) /\ dbs w' !! (n ++ c :: r) = None) /\
  (is_Some (dbs w !! n) -> let '(a, w') := run (Use UDatabase [n ++ c :: r]) w in
     a = Done true [] /\ cur w' = Some n).
Proof.
  intros O I S E. pose proof (words_cut n c r O S) as W.
  assert (D : n ++ c :: r <> n).
  { intros X. apply (f_equal length) in X. rewrite app_length in X. cbn in X. lia. }
  split.
  - intros ine. rewrite (run_create [n ++ c :: r] ine w n (words [] r)); [|exact W|tauto].
    split; [reflexivity|]. unfold create_database. destruct (dbs w !! n) eqn:F; cbn [snd dbs].
    + split; [eauto|exact E].
    + rewrite lookup_insert. split; [eauto|]. rewrite lookup_insert_ne by congruence. exact E.
  - intros [x F]. rewrite (run_use UDatabase [n ++ c :: r] w n (words [] r)); [|tauto|exact W].
    unfold use_database. rewrite F. split; reflexivity.
Qed.

(** Of a name with several parts only the first counts: CREATE DATABASE a.b creates a. *)
Theorem c124_parts_refuted w n more ine : one_word n -> dbs w !! n = None ->
  run (CreateDatabase (n :: more) ine) w =
    (Done true [], World (<[n := ∅]> (dbs w)) (cur w) (start w) (now w)).
Proof.
  intros O E. rewrite (run_create (n :: more) ine w n []); [|exact (words_word n O)|right; reflexivity].
  unfold create_database. rewrite E. reflexivity.
Qed.

(** CREATE SCHEMA creates nothing that USE SCHEMA could use; both report success. *)
Theorem c124_schema_refuted w n ine : one_word n -> dbs w !! n = None ->
  run_all [CreateSchema n ine; Use USchema [n]] w = ([Done true []; Done true []], w).
Proof.
  intros O E. cbn [run_all].
  assert (X : run (CreateSchema n ine) w = (Done true [], w))
    by (unfold run; cbn [plan_of]; rewrite inert_schema; reflexivity).
  rewrite X, (run_use USchema [n] w n []); [|tauto|exact (words_word n O)].
  unfold use_database. rewrite E. reflexivity.
Qed.

(** A rollback to a savepoint undoes the whole transaction, what was done before the savepoint
    included; it succeeds for a savepoint that was never set or has been released. *)
Lemma run_writes_world rows rest w : (run_all ((Write <$> rows) ++ rest) w).2 =
  (run_all rest (World (dbs w) (cur w) (start w) (now w ++ rows))).2 /\
  (run_all ((Write <$> rows) ++ rest) w).1 =
  replicate (length rows) (Done true []) ++ (run_all rest (World (dbs w) (cur w) (start w) (now w ++ rows))).1.
Proof.
  revert w. induction rows as [|r rows IH]; intros w.
  - cbn [fmap list_fmap app length replicate]. rewrite app_nil_r. destruct w. split; reflexivity.
  - cbn [fmap list_fmap app length replicate run_all].
    change (run (Write r) w) with (Done true [] : answer, World (dbs w) (cur w) (start w) (now w ++ [r])).
    cbn iota beta. specialize (IH (World (dbs w) (cur w) (start w) (now w ++ [r]))). cbn [dbs cur start now] in IH.
    rewrite <- app_assoc in IH. cbn [app] in IH. destruct IH as [I1 I2].
    change (list_fmap nat command Write rows) with (Write <$> rows).
    destruct (run_all ((Write <$> rows) ++ rest) _) as [l w2]. cbn [fst snd] in *.
    split; [exact I1|]. rewrite I2. reflexivity.
Qed.
Theorem c124_savepoint_refuted w s before after : now w = start w -> before <> [] ->
  let '(answers, w') := run_all ((Write <$> before) ++ [Savepoint s] ++ (Write <$> after) ++ [Rollback (Some s)]) w in
  Forall (fun a => a = Done true []) answers /\ now w' = now w /\ now w' <> now w ++ before.
Proof.
  intros N B.
  destruct (run_all _ w) as [l w'] eqn:E.
  pose proof (run_writes_world before ([Savepoint s] ++ (Write <$> after) ++ [Rollback (Some s)]) w) as [H1 H2].
  rewrite E in H1, H2. cbn [fst snd] in H1, H2. subst l w'.
  set (w1 := World _ _ _ _). cbn [app run_all].
  assert (S : run (Savepoint s) w1 = (Done true [], w1))
    by (unfold run; cbn [plan_of]; rewrite inert_save; reflexivity).
  rewrite S. pose proof (run_writes_world after [Rollback (Some s)] w1) as [H3 H4].
  destruct (run_all ((Write <$> after) ++ [Rollback (Some s)]) w1) as [l2 w2]. cbn [fst snd] in *. subst l2 w2.
  split; [|split].
  - apply Forall_app. split; [apply Forall_replicate; reflexivity|]. constructor; [reflexivity|].
    apply Forall_app. split; [apply Forall_replicate; reflexivity|]. cbn. repeat constructor.
  - cbn. symmetry. exact N.
  - cbn. rewrite N. intros X. apply (f_equal length) in X. rewrite app_length in X.
    destruct before; [contradiction|]. cbn in X. lia.
Qed.
Theorem c124_unknown_savepoint_refuted w s :
  run_all [Release s; Rollback (Some s)] w =
    ([Done true []; Done true []], World (dbs w) (cur w) (start w) (start w)).
Proof.
  cbn [run_all].
  assert (X : run (Release s) w = (Done true [], w))
    by (unfold run; cbn [plan_of]; rewrite inert_release; reflexivity).
  rewrite X. reflexivity.
Qed.

(** ** Examples *)

Definition w0 : world :=
  World {[ lit "shop" := {[ lit "items" := [lit "id"; lit "price"] ]} ]} (Some (lit "shop")) [1] [1].
Lemma word_ok n : n <> [] -> forallb (fun c => negb (white c)) n = true -> one_word n.
Proof.
  intros N H. split; [exact N|]. apply Forall_forall. intros c I S. rewrite forallb_forall in H.
  apply elem_of_list_In in I. apply H in I. apply white_space in S. rewrite S in I. discriminate.
Qed.
Lemma word_ex : one_word (lit "archive") /\ one_word (lit "shop").
Proof. split; (apply word_ok; [discriminate|reflexivity]). Qed.
(** CREATE DATABASE archive; USE archive *)
Example c124_create_ex :
  cur (run_all [CreateDatabase [lit "archive"] false; Use UObject [lit "archive"]] w0).2 = Some (lit "archive").
Proof. vm_compute. reflexivity. Qed.
Example c124_create_hyp_ex : one_word (lit "archive") /\ dbs w0 !! lit "archive" = None /\
  is_Some (dbs w0 !! lit "shop").
Proof. split; [exact (proj1 word_ex)|]. split; [reflexivity|]. vm_compute. eauto. Qed.
(** ALTER TABLE items ADD COLUMN colour, and the same of a table that is not there *)
Example c124_alter_ex :
  run (AlterTable (lit "items") [AddColumn (lit "colour")]) w0 = (Done true [], w0) /\
  run (AlterTable (lit "nothing") [AddColumn (lit "colour")]) w0 = (Done true [], w0).
Proof. split; vm_compute; reflexivity. Qed.
(** CREATE VIEW cheap AS SELECT id FROM items *)
Example c124_view_ex : run (CreateView (lit "cheap") [] (Some [lit "id"]) false) w0 = (Done true [], w0).
Proof. vm_compute. reflexivity. Qed.
(** CREATE DATABASE "old shop" creates the database old *)
Example c124_space_ex :
  bool_decide (is_Some (dbs (run (CreateDatabase [lit "old shop"] false) w0).2 !! lit "old")) = true.
Proof. vm_compute. reflexivity. Qed.
(** DROP is refused. *)
Example c124_refused_ex : run (Drop (lit "items")) w0 = (Refused, w0).
Proof. reflexivity. Qed.
(** INSERT; SAVEPOINT s; INSERT; ROLLBACK TO SAVEPOINT s: the first row is lost as well. *)
Example c124_savepoint_ex :
  now (run_all [Write 2; Savepoint (lit "s"); Write 3; Rollback (Some (lit "s"))] w0).2 = [1].
Proof. reflexivity. Qed.

Print Assumptions c124_create_partial.
Print Assumptions c124_use_partial.
Print Assumptions c124_rollback.
Print Assumptions c124_refused.
Print Assumptions c124_no_other_effect.
Print Assumptions c124_alter_refuted.
Print Assumptions c124_view_refuted.
Print Assumptions c124_alter_view_refuted.
Print Assumptions c124_show_refuted.
Print Assumptions c124_existing_refuted.
Print Assumptions c124_space_refuted.
Print Assumptions c124_parts_refuted.
Print Assumptions c124_schema_refuted.
Print Assumptions c124_savepoint_refuted.
Print Assumptions c124_unknown_savepoint_refuted.
