(** Proofs about the texts of commands. *)
From Coq Require Import NArith Ascii String Lia.
From stdpp Require Import list gmap.
From Verif Require Import CmdSpec CmdModel.

Lemma white_space c : white c = true <-> space c.
Proof.
  unfold white, space. rewrite !orb_true_iff, !andb_true_iff, !N.leb_le, !N.eqb_eq. tauto.
Qed.
Lemma not_white c : ~ space c -> white c = false.
Proof. intros H. destruct (white c) eqn:E; [|reflexivity]. apply white_space in E. contradiction. Qed.

Lemma words_run n w r : Forall (fun c => ~ space c) n -> words w (n ++ r) = words (w ++ n) r.
Proof.
  intros H. revert w. induction H as [|c n Hc H IH]; intros w; [rewrite app_nil_r; reflexivity|].
  cbn [app words]. rewrite (not_white _ Hc), IH, <- app_assoc. reflexivity.
Qed.
Lemma words_word n : one_word n -> words [] n = [n].
Proof.
  intros [H F]. rewrite <- (app_nil_r n) at 1. rewrite (words_run n [] [] F). cbn [app].
  destruct n; [contradiction|reflexivity].
Qed.
Lemma words_cut n c r : one_word n -> space c -> words [] (n ++ c :: r) = n :: words [] r.
Proof.
  intros [H F] S. rewrite (words_run n [] _ F). cbn [app words].
  apply white_space in S. rewrite S. destruct n; [contradiction|reflexivity].
Qed.
Lemma words_blank s : Forall space s -> words [] s = [].
Proof.
  intros H. induction H as [|c s Hc H IH]; [reflexivity|]. cbn [words].
  apply white_space in Hc. rewrite Hc. exact IH.
Qed.

Lemma skip_app x y c : white c = false -> skip_white (x ++ c :: y) = skip_white x ++ c :: y.
Proof.
  intros H. induction x as [|a x IH]; cbn [app skip_white]; [rewrite H; reflexivity|].
  destruct (white a); [exact IH|reflexivity].
Qed.
Lemma trim_keeps c p s d : white c = false -> white d = false ->
  exists s', trim ((c :: p) ++ d :: s) = (c :: p) ++ d :: s'.
Proof.
  intros Hc Hd. unfold trim. cbn [app skip_white]. rewrite Hc.
  assert (E : rev (c :: p ++ d :: s) = rev s ++ d :: rev (c :: p)).
  { change (c :: p ++ d :: s) with ((c :: p) ++ d :: s). rewrite rev_app_distr. cbn [rev].
    rewrite <- !app_assoc. reflexivity. }
  rewrite E. rewrite (skip_app _ _ _ Hd). rewrite rev_app_distr. cbn [rev]. rewrite rev_app_distr, rev_involutive.
  cbn [rev app]. rewrite <- !app_assoc. eexists. reflexivity.
Qed.
Lemma starts_app p s : starts p (p ++ s) = true.
Proof. induction p as [|a p IH]; [reflexivity|]. cbn. rewrite N.eqb_refl. exact IH. Qed.

Lemma create_text s w : execute_command (lit "CREATE DATABASE" ++ s) w =
  execute_create_database (lit "CREATE DATABASE" ++ s) w.
Proof.
  unfold execute_command.
  destruct (trim_keeps 67 (lit "REATE DATABAS") s 69 eq_refl eq_refl) as [s' E].
  change (lit "CREATE DATABASE" ++ s) with ((67%N :: lit "REATE DATABAS") ++ 69%N :: s). rewrite E.
  reflexivity.
Qed.
Lemma use_text s w : execute_command (lit "USE" ++ s) w = execute_use_database (lit "USE" ++ s) w.
Proof.
  unfold execute_command.
  destruct (trim_keeps 85 (lit "S") s 69 eq_refl eq_refl) as [s' E].
  change (lit "USE" ++ s) with ((85%N :: lit "S") ++ 69%N :: s). rewrite E. reflexivity.
Qed.
(** Two first letters that are no blank and begin neither "CREATE DATABASE" nor "USE". *)
Lemma inert_text c p d s w : white c = false -> white d = false ->
  (forall r, starts (lit "CREATE DATABASE") ((c :: p) ++ d :: r) = false) ->
  (forall r, starts (lit "USE") ((c :: p) ++ d :: r) = false) ->
  execute_command ((c :: p) ++ d :: s) w = (true, w).
Proof.
  intros Hc Hd H1 H2. unfold execute_command.
  destruct (trim_keeps c p s d Hc Hd) as [s' E]. rewrite E, H1, H2. reflexivity.
Qed.
Lemma inert_schema s w : execute_command (lit "CREATE SCHEMA " ++ s) w = (true, w).
Proof.
  exact (inert_text 67 (lit "REATE SCHEM") 65 (lit " " ++ s) w eq_refl eq_refl (fun _ => eq_refl) (fun _ => eq_refl)).
Qed.
Lemma inert_view s w : execute_command (lit "CREATE VIEW " ++ s) w = (true, w).
Proof.
  exact (inert_text 67 (lit "REATE VIE") 87 (lit " " ++ s) w eq_refl eq_refl (fun _ => eq_refl) (fun _ => eq_refl)).
Qed.
Lemma inert_alter_table s w : execute_command (lit "ALTER TABLE " ++ s) w = (true, w).
Proof.
  exact (inert_text 65 (lit "LTER TABL") 69 (lit " " ++ s) w eq_refl eq_refl (fun _ => eq_refl) (fun _ => eq_refl)).
Qed.
Lemma inert_alter_view s w : execute_command (lit "ALTER VIEW " ++ s) w = (true, w).
Proof.
  exact (inert_text 65 (lit "LTER VIE") 87 (lit " " ++ s) w eq_refl eq_refl (fun _ => eq_refl) (fun _ => eq_refl)).
Qed.
Lemma inert_show s w : execute_command (lit "SHOW" ++ s) w = (true, w).
Proof.
  exact (inert_text 83 (lit "HO") 87 (lit "" ++ s) w eq_refl eq_refl (fun _ => eq_refl) (fun _ => eq_refl)).
Qed.
Lemma inert_show_dbs s w : execute_command (lit "SHOW DATABASES" ++ s) w = (true, w).
Proof.
  exact (inert_text 83 (lit "HOW DATABASE") 83 (lit "" ++ s) w eq_refl eq_refl (fun _ => eq_refl) (fun _ => eq_refl)).
Qed.
Lemma inert_save s w : execute_command (lit "SAVEPOINT " ++ s) w = (true, w).
Proof.
  exact (inert_text 83 (lit "AVEPOIN") 84 (lit " " ++ s) w eq_refl eq_refl (fun _ => eq_refl) (fun _ => eq_refl)).
Qed.
Lemma inert_release s w : execute_command (lit "RELEASE SAVEPOINT " ++ s) w = (true, w).
Proof.
  exact (inert_text 82 (lit "ELEASE SAVEPOIN") 84 (lit " " ++ s) w eq_refl eq_refl (fun _ => eq_refl) (fun _ => eq_refl)).
Qed.

Lemma create_words ine n ws : words [] n = ws ->
  words [] (lit "CREATE DATABASE " ++ opt ine "IF NOT EXISTS " ++ n) =
    [lit "CREATE"; lit "DATABASE"] ++ (if ine then [lit "IF"; lit "NOT"; lit "EXISTS"] else []) ++ ws.
Proof. intros <-. destruct ine; reflexivity. Qed.
Lemma use_words n ws : words [] n = ws -> words [] (lit "USE " ++ n) = lit "USE" :: ws.
Proof. intros <-. reflexivity. Qed.

(** CREATE DATABASE of a text that reads as the words n, … *)
Lemma run_create parts ine w n ws : words [] (first parts) = n :: ws ->
  (ine = false -> n <> lit "IF" \/ ws = []) ->
  run (CreateDatabase parts ine) w = (Done true [], (create_database n w).2).
Proof.
  intros E H. unfold run. cbn [plan_of].
  change (lit "CREATE DATABASE " ++ opt ine "IF NOT EXISTS " ++ first parts)
    with (lit "CREATE DATABASE" ++ (lit " " ++ opt ine "IF NOT EXISTS " ++ first parts)).
  rewrite create_text.
  change (lit "CREATE DATABASE" ++ (lit " " ++ opt ine "IF NOT EXISTS " ++ first parts))
    with (lit "CREATE DATABASE " ++ opt ine "IF NOT EXISTS " ++ first parts).
  unfold execute_create_database. rewrite (create_words ine _ _ E).
  destruct ine.
  - cbn [app]. rewrite decide_False by (cbn; lia). rewrite decide_True.
    + rewrite decide_False by (cbn; lia). reflexivity.
    + cbn. repeat split; lia.
  - cbn [app]. rewrite decide_False by (cbn; lia). rewrite decide_False; [reflexivity|].
    intros (L & I & _). cbn in L. change (n = lit "IF") in I.
    destruct (H eq_refl) as [X|X]; [|subst ws; cbn in L; lia]. apply X. exact I.
Qed.
Lemma run_use k parts w n ws : k = UDatabase \/ k = USchema \/ k = UObject \/ k = UCatalog ->
  words [] (first parts) = n :: ws ->
  run (Use k parts) w = (Done true [], (use_database n w).2).
Proof.
  intros K E. unfold run.
  assert (P : plan_of (Use k parts) w = Some (Command (lit "USE" ++ (lit " " ++ first parts))))
    by (destruct K as [->|[->|[->| ->]]]; reflexivity).
  rewrite P, use_text. change (lit "USE" ++ (lit " " ++ first parts)) with (lit "USE " ++ first parts).
  unfold execute_use_database. rewrite (use_words _ _ E). rewrite decide_False by (cbn; lia). reflexivity.
Qed.
