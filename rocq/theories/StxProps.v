(** C130: START TRANSACTION starts the transaction asked for. *)
From stdpp Require Import gmap list.
From Coq Require Import NArith Lia.
From Verif Require Import WatermarkModel MvccModel SessModel StxSpec StxModel.

Lemma read_level ms l o : asked_level l ms (o_level (foldl set_mode (Opts o l) ms)).
Proof.
  revert l o. induction ms as [|m ms IH] using rev_ind; intros l o.
  - apply al_none. intros x [].
  - rewrite foldl_app. cbn [foldl]. destruct m as [| |x]; cbn [set_mode o_level].
    + destruct (IH l o) as [b x a E H|H].
      * apply (al_last _ _ b x (a ++ [ReadOnly])); [rewrite E, <- app_assoc; reflexivity|].
        intros y Hy. apply in_app_or in Hy as [Hy|[Hy|[]]]; [exact (H y Hy)|discriminate].
      * apply al_none. intros y Hy. apply in_app_or in Hy as [Hy|[Hy|[]]]; [exact (H y Hy)|discriminate].
    + destruct (IH l o) as [b x a E H|H].
      * apply (al_last _ _ b x (a ++ [ReadWrite])); [rewrite E, <- app_assoc; reflexivity|].
        intros y Hy. apply in_app_or in Hy as [Hy|[Hy|[]]]; [exact (H y Hy)|discriminate].
      * apply al_none. intros y Hy. apply in_app_or in Hy as [Hy|[Hy|[]]]; [exact (H y Hy)|discriminate].
    + apply (al_last _ _ ms x []); [reflexivity|intros y []].
Qed.
(** The new transaction is running at the level asked for, READ COMMITTED if none is, and no
    other transaction is touched. *)
Theorem c130_level s d : let (t, d') := start_transaction s d in
  exists x, running (mvs d') t = Some x /\ asked_level LRC (st_modes s) (x_level x) /\ x_ws x = ∅ /\
    forall u, u <> t -> obj d' u = obj d u.
Proof.
  unfold start_transaction, execute, build, read_modes. cbn [sp_level]. unfold t_begin, begin.
  pose proof (read_level (st_modes s) LRC false) as A. unfold opts_init. set (l := o_level _) in *. clearbody l.
  destruct (get_next_ts_and_register (wk (mvs d))) as [w ts].
  eexists. split; [unfold running; cbn [mvs set_mv snd tx]; rewrite lookup_insert; cbn [x_state]; reflexivity|].
  cbn [x_level x_ws]. split; [exact A|]. split; [reflexivity|].
  intros u Hu. unfold obj, running. cbn [mvs set_mv snd tx d_old]. rewrite lookup_insert_ne by congruence. reflexivity.
Qed.
(** The level asked for is one only. *)
Theorem c130_level_unique (ms : list (mode level)) l k : asked_level LRC ms l -> asked_level LRC ms k -> l = k.
Proof.
  assert (U : forall (b b' : list (mode level)) x x' a a', b ++ Isolation x :: a = b' ++ Isolation x' :: a' -> no_level a -> no_level a' -> x = x').
  { induction b as [|m b IH]; intros b' x x' a a' E A A'.
    - destruct b' as [|m' b']; cbn in E.
      + injection E as -> _. reflexivity.
      + injection E as _ E. exfalso. apply (A x'). rewrite E. apply in_or_app. right. left. reflexivity.
    - destruct b' as [|m' b']; cbn in E.
      + injection E as _ E. exfalso. apply (A' x). rewrite <- E. apply in_or_app. right. left. reflexivity.
      + injection E as _ E. exact (IH b' x x' a a' E A A'). }
  intros [b x a E A|A] [b' x' a' E' A'|A'].
  - apply (U b b' x x' a a'); [congruence|exact A|exact A'].
  - exfalso. apply (A' x). rewrite E. apply in_or_app. right. left. reflexivity.
  - exfalso. apply (A x'). rewrite E'. apply in_or_app. right. left. reflexivity.
  - reflexivity.
Qed.

Definition is_level (m : mode level) : bool := match m with Isolation _ => true | _ => false end.
Lemma level_access ms : forall o o' l, o_level (foldl set_mode (Opts o l) ms) =
  o_level (foldl set_mode (Opts o' l) (List.filter is_level ms)).
Proof.
  induction ms as [|m ms IH]; intros o o' l; [reflexivity|].
  destruct m; cbn [List.filter is_level foldl set_mode o_level o_read_only]; apply IH.
Qed.
(** READ ONLY has no effect: whatever the transaction does, it does as if it had not been said;
    in particular its changes are made. *)
Theorem c130_read_only_refuted s : asked_read_only (st_modes s) ->
  sp_read_only (build s) = true /\
  exists s', (forall m, m ∈ st_modes s' -> exists l, m = Isolation l) /\
    forall d, start_transaction s d = start_transaction s' d /\
      forall ops aff e, engine (start_transaction s d).1 (SWork ops aff) e (start_transaction s d).2 =
                        engine (start_transaction s' d).1 (SWork ops aff) e (start_transaction s' d).2.
Proof.
  intros [b a E [A1 A2]]. split.
  - unfold build, read_modes. cbn [sp_read_only]. rewrite E, foldl_app. cbn [foldl set_mode].
    generalize (o_level (foldl set_mode opts_init b)) as l. clear E. revert A1 A2. induction a as [|m a IH]; intros A1 A2 l; [reflexivity|].
    destruct m; cbn [foldl set_mode o_level o_read_only].
    + exfalso. apply A1. left. reflexivity.
    + exfalso. apply A2. left. reflexivity.
    + apply IH; intros H; [apply A1|apply A2]; right; exact H.
  - exists (Start (List.filter is_level (st_modes s)) (st_body s)). split.
    + cbn [st_modes]. intros m Hm. apply elem_of_list_In, filter_In in Hm as [_ Hm]. destruct m as [| |l]; [discriminate|discriminate|exists l; reflexivity].
    + intros d. assert (Q : start_transaction s d = start_transaction (Start (List.filter is_level (st_modes s)) (st_body s)) d).
      { unfold start_transaction, execute, build, read_modes, opts_init. cbn [sp_level st_modes]. rewrite (level_access (st_modes s) false false). reflexivity. }
      split; [exact Q|]. intros ops aff e. rewrite <- Q. reflexivity.
Qed.
(** The statements between BEGIN and END are not carried out. *)
Theorem c130_body_refuted ms body d : start_transaction (Start ms body) d = start_transaction (Start ms []) d.
Proof. reflexivity. Qed.

Definition ro : start := Start [Isolation LSer; ReadOnly; Isolation LSnap] [].
Example c130_level_ex : asked_level LRC (st_modes ro) LSnap /\ asked_read_only (st_modes ro) /\
  level_of (start_transaction ro db_init).2 (start_transaction ro db_init).1 = LSnap.
Proof.
  split; [apply (al_last _ _ [Isolation LSer; ReadOnly] LSnap []); [reflexivity|intros l []]|].
  split; [apply (ro_last _ [Isolation LSer] [Isolation LSnap]); [reflexivity|split; intros [H|[]]; discriminate]|].
  vm_compute. reflexivity.
Qed.
(** A row is inserted in a transaction started READ ONLY. *)
Example c130_write_ex (y : tuple) : (engine (start_transaction ro db_init).1 (SWork [Ins (0%N, 0%N) y] true) (Env ∅ ∅ ∅ false)
  (start_transaction ro db_init).2).1.1 = Some true.
Proof. vm_compute. reflexivity. Qed.

Print Assumptions c130_level.
Print Assumptions c130_level_unique.
Print Assumptions c130_read_only_refuted.
Print Assumptions c130_body_refuted.
