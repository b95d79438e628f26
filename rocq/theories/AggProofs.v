(** * Proofs about aggregation *)
From Coq Require Import String ZArith Lia.
From stdpp Require Import list.
From Verif Require Import ExprModel ExecModel AggModel AggSpec.
Local Open Scope Z_scope.

(** ** Sums that wrap *)
Lemma bits_pos t : 0 < 2 ^ (bits t - 1) /\ 2 ^ bits t = 2 * 2 ^ (bits t - 1).
Proof. destruct t; cbn; lia. Qed.

Lemma wrap_in t z : in_range t z = true -> wrap t z = z.
Proof.
  unfold in_range, wrap. destruct (bits_pos t) as [Hp ->]. intros H. apply andb_prop in H as [H1 H2].
  rewrite Z.mod_small by lia. lia.
Qed.

Lemma wrap_add t a b : wrap t (wrap t a + b) = wrap t (a + b).
Proof.
  unfold wrap. f_equal.
  replace ((a + 2 ^ (bits t - 1)) mod 2 ^ bits t - 2 ^ (bits t - 1) + b + 2 ^ (bits t - 1))
    with ((a + 2 ^ (bits t - 1)) mod 2 ^ bits t + b) by lia.
  rewrite Z.add_mod_idemp_l by (destruct (bits_pos t); lia). f_equal. lia.
Qed.

Lemma zsum_snoc l v : zsum (l ++ [v]) = zsum l + int_of v.
Proof. unfold zsum. induction l as [|x l IH]; cbn; [lia|]. rewrite IH. lia. Qed.

Lemma args_snoc e rows r : args e (rows ++ [r]) = args e rows ++ match eval e r with Ok VNull => [] | Ok v => [v] | Err => [] end.
Proof. unfold args. rewrite flat_map_app. cbn. by rewrite app_nil_r. Qed.

(** ** The order of comparable values *)
Lemma val_le_refl v : v <> VNull -> val_le v v.
Proof.
  destruct v; cbn; try lia; try done; intros _.
  all: destruct (String.compare s s) eqn:E; try done; pose proof (String.compare_antisym s s) as H; rewrite E in H; discriminate.
Qed.

Lemma str_lt_trans a b c : String.compare a b = Datatypes.Lt -> String.compare b c = Datatypes.Lt -> String.compare a c = Datatypes.Lt.
Proof.
  revert b c. induction a as [|x a IH]; intros [|y b] [|z c]; cbn; try done.
  unfold Ascii.compare. destruct (N.compare (Ascii.N_of_ascii x) (Ascii.N_of_ascii y)) eqn:E1; try done;
    destruct (N.compare (Ascii.N_of_ascii y) (Ascii.N_of_ascii z)) eqn:E2; try done.
  - apply N.compare_eq in E1, E2. rewrite E1, E2, N.compare_refl. apply IH.
  - apply N.compare_eq in E1. by rewrite E1, E2.
  - apply N.compare_eq in E2. by rewrite <- E2, E1.
  - intros _ _. by rewrite (N.lt_trans _ _ _ E1 E2).
Qed.

Lemma str_le_trans a b c : String.compare a b <> Datatypes.Gt -> String.compare b c <> Datatypes.Gt -> String.compare a c <> Datatypes.Gt.
Proof.
  intros H1 H2. destruct (String.compare a b) eqn:E1; [| |done].
  - apply String.compare_eq_iff in E1. by subst.
  - destruct (String.compare b c) eqn:E2; [| |done].
    + apply String.compare_eq_iff in E2. subst. by rewrite E1.
    + by rewrite (str_lt_trans _ _ _ E1 E2).
Qed.

Lemma val_le_trans a b c : val_le a b -> val_le b c -> val_le a c.
Proof. destruct a, b, c; cbn; try done; try lia; try tauto; apply str_le_trans. Qed.

Lemma lt_true a b : comparable a b -> compare_op Lt a b = CmpTrue -> val_le a b.
Proof.
  destruct a, b; cbn; try done; intros _.
  - by destruct b0, b.
  - unfold Z.le. by destruct (z ?= z0).
  - by destruct (String.compare s s0).
  - by destruct (String.compare s s0).
Qed.

Lemma lt_false a b : comparable a b -> compare_op Lt a b <> CmpTrue -> val_le b a.
Proof.
  destruct a, b; cbn; try done; intros _.
  - by destruct b0, b.
  - intros H. destruct (Z.compare_spec z z0); cbn in H; try done; lia.
  - rewrite String.compare_antisym. by destruct (String.compare s0 s).
  - rewrite String.compare_antisym. by destruct (String.compare s0 s).
Qed.

(** ** One aggregate *)
Definition agg_state (a : agg) (rows : list row) (v : val) : Prop :=
  match a with
  | AgCountStar | AgCount _ => match rows with [] => v = VNull | _ => v = VInt BigInt (wrap BigInt (Z.of_nat (length rows))) end
  | AgSum e => match args e rows with
               | [] => v = VNull
               | l => exists t, Forall (fun x => exists z, x = VInt t z) l /\ (v = VInt t (zsum l) \/ v = VInt t (wrap t (zsum l)))
               end
  | _ => agg_means a rows v
  end.

(** What a prefix of the rows of a fine aggregate keeps. *)
Definition agg_ok (a : agg) (rows : list row) : Prop :=
  match a with
  | AgCountStar | AgCount _ => True
  | AgSum e => Forall (fun r => exists v, eval e r = Ok v) rows /\
      exists t, Forall (fun v => exists z, v = VInt t z) (args e rows)
  | AgMin e | AgMax e => Forall (fun r => exists v, eval e r = Ok v) rows /\
      forall v w, v ∈ args e rows -> w ∈ args e rows -> comparable v w
  end.

Lemma fine_ok a rows : agg_fine a rows -> agg_ok a rows.
Proof. destruct a; cbn; try done. intros (H & t & H2 & _). eauto. Qed.

Lemma ok_prefix a rows more : agg_ok a (rows ++ more) -> agg_ok a rows.
Proof.
  destruct a; cbn; try done; unfold args; rewrite flat_map_app.
  - intros (H & t & H2). apply Forall_app in H as [H _]. apply Forall_app in H2 as [H2 _]. eauto.
  - intros (H & H2). apply Forall_app in H as [H _]. split; [done|]. intros v w Hv Hw. apply H2; apply elem_of_app; by left.
  - intros (H & H2). apply Forall_app in H as [H _]. split; [done|]. intros v w Hv Hw. apply H2; apply elem_of_app; by left.
Qed.

Lemma agg_state_nil a : agg_state a [] VNull.
Proof. by destruct a. Qed.

Lemma ext_step (le : val -> val -> Prop) (l : list val) (x cur v : val) :
  (forall a b c, le a b -> le b c -> le a c) -> le x x -> cur ∈ l -> (forall w, w ∈ l -> le cur w) ->
  (v = x /\ le x cur) \/ (v = cur /\ le cur x) ->
  v ∈ l ++ [x] /\ forall w, w ∈ l ++ [x] -> le v w.
Proof.
  intros Ht Hr Hc Hall [[-> H]|[-> H]].
  - split; [apply elem_of_app; right; by apply elem_of_list_singleton|]. intros w [Hw| ->%elem_of_list_singleton]%elem_of_app; eauto.
  - split; [apply elem_of_app; by left|]. intros w [Hw| ->%elem_of_list_singleton]%elem_of_app; eauto.
Qed.

Lemma agg_step_ok a rows r v : agg_state a rows v -> agg_ok a (rows ++ [r]) -> exists v2, agg_step a r v = UOk v2 /\ agg_state a (rows ++ [r]) v2.
Proof.
  assert (Hcount : forall n, agg_state AgCountStar rows v ->
    exists v2, (if is_null v then UOk (VInt BigInt 1) else of_res (value_add v (VInt BigInt 1))) = UOk v2 /\ agg_state (AgCount n) (rows ++ [r]) v2).
  { intros n. cbn. destruct rows as [|r0 rows].
    - intros ->. eexists. split; [done|]. cbn. done.
    - intros ->. cbn [is_null value_add of_res]. rewrite wrap_add. eexists. split; [done|]. cbn [app agg_state].
      do 2 f_equal. cbn [length]. rewrite app_length. cbn [length]. lia. }
  destruct a as [e|e| |e|e]; intros Hs Hf.
  2:{ apply (Hcount e). exact Hs. }
  2:{ apply (Hcount (EConst VNull)). exact Hs. }
  - destruct Hf as (Hev & t & Ht). apply Forall_app in Hev as [_ Hev]. apply Forall_singleton in Hev as [x Hx].
    cbn [agg_state agg_step] in *. unfold with_arg. rewrite args_snoc in *. rewrite Hx in *.
    destruct x as [|b|u z|s|s]; cbn [is_null].
    { rewrite app_nil_r in *. eauto. }
    all: apply Forall_app in Ht as [Ht Hz]; apply Forall_singleton in Hz as [z' Hz]; try discriminate.
    assert (u = t) by congruence. subst u. destruct (args e rows) as [|y l] eqn:El.
    + subst v. cbn. eexists. split; [done|]. exists t. split; [repeat constructor; eauto|]. left. do 2 f_equal. unfold zsum. cbn. lia.
    + destruct Hs as (t' & Hall & Hv).
      assert (t' = t). { inversion Ht as [|? ? [z1 ->] _]; subst. inversion Hall as [|? ? [z2 Hz2] _]; subst. congruence. } subst t'.
      assert (Hadd : value_add v (VInt t z) = Ok (VInt t (wrap t (zsum (y :: l) + z)))).
      { destruct Hv as [-> | ->]; destruct t; cbn [value_add]; try rewrite wrap_add; done. }
      assert (Hnn : is_null v = false) by (by destruct Hv as [-> | ->]).
      rewrite Hnn, Hadd. cbn [of_res]. eexists. split; [done|]. cbn [app]. exists t. split.
      * change (y :: l ++ [VInt t z]) with ((y :: l) ++ [VInt t z]). apply Forall_app. split; [done|]. repeat constructor; eauto.
      * right. change (y :: l ++ [VInt t z]) with ((y :: l) ++ [VInt t z]). by rewrite zsum_snoc.
  - destruct Hf as (Hev & Hc). apply Forall_app in Hev as [_ Hev]. apply Forall_singleton in Hev as [x Hx].
    cbn [agg_state agg_step agg_means] in *. unfold with_arg. rewrite args_snoc in *. rewrite Hx in *.
    destruct (decide (x = VNull)) as [->|Hnn]; [cbn; rewrite app_nil_r in *; eauto|].
    assert (Hxn : is_null x = false) by (by destruct x). rewrite Hxn.
    assert (Ex : match x with VNull => [] | _ => [x] end = [x]) by (by destruct x). rewrite Ex in *.
    destruct (args e rows) as [|y l] eqn:El.
    + subst v. cbn. eexists. split; [done|]. split; [by left|]. intros w ->%elem_of_list_singleton. by apply val_le_refl.
    + destruct Hs as [Hin Hall].
      assert (Hcmp : comparable x v) by (apply Hc; apply elem_of_app; [right; by apply elem_of_list_singleton|by left]).
      assert (Hvn : is_null v = false) by (destruct v, x; done). rewrite Hvn.
      assert (exists v2, (match compare_op Lt x v with CmpTrue => UOk x | _ => UOk v end) = UOk v2 /\
               ((v2 = x /\ val_le x v) \/ (v2 = v /\ val_le v x))) as (v2 & -> & Hv2).
      { destruct (compare_op Lt x v) eqn:Ec.
        - exists v. split; [done|]. right. split; [done|]. apply lt_false; [done|]. by rewrite Ec.
        - exists x. split; [done|]. left. split; [done|]. by apply lt_true.
        - exists v. split; [done|]. right. split; [done|]. apply lt_false; [done|]. by rewrite Ec. }
      exists v2. split; [done|]. cbn [app]. change (y :: l ++ [x]) with ((y :: l) ++ [x]).
      apply (ext_step val_le _ x v); try done; [exact val_le_trans|by apply val_le_refl].
  - destruct Hf as (Hev & Hc). apply Forall_app in Hev as [_ Hev]. apply Forall_singleton in Hev as [x Hx].
    cbn [agg_state agg_step agg_means] in *. unfold with_arg. rewrite args_snoc in *. rewrite Hx in *.
    destruct (decide (x = VNull)) as [->|Hnn]; [cbn; rewrite app_nil_r in *; eauto|].
    assert (Hxn : is_null x = false) by (by destruct x). rewrite Hxn.
    assert (Ex : match x with VNull => [] | _ => [x] end = [x]) by (by destruct x). rewrite Ex in *.
    destruct (args e rows) as [|y l] eqn:El.
    + subst v. cbn. eexists. split; [done|]. split; [by left|]. intros w ->%elem_of_list_singleton. by apply val_le_refl.
    + destruct Hs as [Hin Hall].
      assert (Hcmp : comparable v x) by (apply Hc; apply elem_of_app; [by left|right; by apply elem_of_list_singleton]).
      assert (Hvn : is_null v = false) by (destruct v, x; done). rewrite Hvn.
      assert (exists v2, (match compare_op Lt v x with CmpTrue => UOk x | _ => UOk v end) = UOk v2 /\
               ((v2 = x /\ val_le v x) \/ (v2 = v /\ val_le x v))) as (v2 & -> & Hv2).
      { destruct (compare_op Lt v x) eqn:Ec.
        - exists v. split; [done|]. right. split; [done|]. apply lt_false; [done|]. by rewrite Ec.
        - exists x. split; [done|]. left. split; [done|]. by apply lt_true.
        - exists v. split; [done|]. right. split; [done|]. apply lt_false; [done|]. by rewrite Ec. }
      exists v2. split; [done|]. cbn [app]. change (y :: l ++ [x]) with ((y :: l) ++ [x]).
      apply (ext_step (fun a b => val_le b a) _ x v); try done; [intros; by eapply val_le_trans|by apply val_le_refl].
Qed.

Lemma agg_state_means a rows v : rows <> [] -> agg_fine a rows -> counts_no_null a rows -> agg_state a rows v -> agg_means a rows v.
Proof.
  intros Hne Hf Hn Hs. destruct a as [e|e| |e|e]; cbn in *; try done.
  - destruct (args e rows) as [|y l] eqn:El; [done|]. destruct Hf as (_ & t & Ht & Hr). destruct Hs as (t' & Ht' & Hv).
    assert (t' = t). { inversion Ht as [|? ? [z1 ->] _]; subst. inversion Ht' as [|? ? [z2 Hz2] _]; subst. congruence. } subst t'.
    exists t. destruct Hv as [->| ->]; [done|]. by rewrite wrap_in.
  - destruct rows as [|r rows]; [done|]. subst v. rewrite wrap_in by exact Hf. do 2 f_equal.
    clear Hf Hne. remember (r :: rows) as l. clear Heql. induction l as [|x l IH]; [done|].
    inversion Hn as [|? ? (v & Hv & Hvn) Hl]; subst. cbn [args flat_map]. rewrite Hv, app_length.
    assert (Ev : match v with VNull => [] | _ => [v] end = [v]) by (by destruct v). rewrite Ev. cbn [length]. unfold args in IH. rewrite IH; [done|exact Hl].
  - destruct rows as [|r rows]; [done|]. subst v. by rewrite wrap_in by exact Hf.
Qed.

(** ** All aggregates of a group *)
Lemma agg_row_ok aggs rows r vs : Forall2 (fun a v => agg_state a rows v) aggs vs -> Forall (fun a => agg_ok a (rows ++ [r])) aggs ->
  exists vs2, agg_row aggs r vs = Some vs2 /\ Forall2 (fun a v => agg_state a (rows ++ [r]) v) aggs vs2.
Proof.
  induction 1 as [|a v aggs vs Hs _ IH]; intros Hf; [by exists []|].
  inversion Hf as [|? ? Hfa Hfs]; subst. destruct (agg_step_ok _ _ _ _ Hs Hfa) as (v2 & E & Hs2). destruct (IH Hfs) as (vs2 & E2 & Hss).
  cbn. rewrite E, E2. eexists. split; [done|]. by constructor.
Qed.

Lemma key_of_has keys r k : key_of keys r = Some k <-> has_key keys r k.
Proof.
  revert k. induction keys as [|e keys IH]; intros k; cbn.
  - split; [intros [= <-]; constructor|inversion 1; done].
  - destruct (eval e r) as [v|] eqn:E.
    + destruct (key_of keys r) as [k'|] eqn:Ek.
      * split; [intros [= <-]; constructor; [done|by apply IH]|]. inversion 1; subst. assert (v = y) by congruence. subst.
        do 2 f_equal. apply Some_inj. by apply IH.
      * split; [done|]. inversion 1; subst. apply IH in H4. congruence.
    + split; [done|]. inversion 1; subst. congruence.
Qed.

Lemma has_key_det keys r k k2 : has_key keys r k -> has_key keys r k2 -> k = k2.
Proof. intros H1 H2. apply key_of_has in H1, H2. congruence. Qed.

Lemma group_snoc keys k rows r : group keys k (rows ++ [r]) = group keys k rows ++ (if has_key_dec keys r k then [r] else []).
Proof. unfold group. rewrite List.filter_app. cbn. by destruct (has_key_dec keys r k). Qed.

(** ** The groups *)
Definition gs_ok (keys : list expr) (aggs : list agg) (rows : list row) (gs : groups) : Prop :=
  NoDup (map fst gs) /\
  (forall k, k ∈ map fst gs <-> exists r, r ∈ rows /\ has_key keys r k) /\
  (forall k vs, (k, vs) ∈ gs -> Forall2 (fun a v => agg_state a (group keys k rows) v) aggs vs).

Lemma add_row_ok aggs k r (P : list val -> list val -> Prop) (Q : list val -> Prop) : forall gs,
  (forall vs, (k, vs) ∈ gs -> exists vs2, agg_row aggs r vs = Some vs2 /\ Q vs2) ->
  (k ∉ map fst gs -> exists vs2, agg_row aggs r (map (fun _ => VNull) aggs) = Some vs2 /\ Q vs2) ->
  NoDup (map fst gs) -> (forall k' vs, (k', vs) ∈ gs -> k' <> k -> P k' vs) ->
  exists gs2, add_row aggs k r gs = Some gs2 /\ NoDup (map fst gs2) /\
    (forall k', k' ∈ map fst gs2 <-> k' = k \/ k' ∈ map fst gs) /\
    (forall k' vs, (k', vs) ∈ gs2 -> (k' = k /\ Q vs) \/ (k' <> k /\ P k' vs)).
Proof.
  induction gs as [|[k' vs] gs IH]; intros Hin Hnew Hnd HP; cbn [add_row].
  - destruct Hnew as (vs2 & -> & HQ); [by apply not_elem_of_nil|]. eexists. split; [done|]. split; [by repeat constructor; apply not_elem_of_nil|].
    split; [intros k'; cbn; by rewrite elem_of_list_singleton, elem_of_nil; naive_solver|].
    intros k' vs [= -> ->]%elem_of_list_singleton. by left.
  - cbn [map fst] in *. apply NoDup_cons in Hnd as [Hni Hnd]. destruct (decide (k' = k)) as [->|Hne].
    + destruct (Hin vs) as (vs2 & -> & HQ); [by left|]. eexists. split; [done|]. cbn [map fst]. split; [by constructor|].
      split; [intros k'; rewrite elem_of_cons; naive_solver|].
      intros k' vs' [[= -> ->]|Hx]%elem_of_cons; [by left|]. right.
      assert (k' <> k). { intros ->. apply Hni. apply elem_of_list_fmap. by exists (k, vs'). }
      split; [done|]. apply HP; [by right|done].
    + destruct IH as (gs2 & -> & Hnd2 & Hk2 & HP2).
      * intros vs' Hx. apply Hin. by right.
      * intros Hx. apply Hnew. rewrite elem_of_cons. naive_solver.
      * done.
      * intros k2 vs' Hx. apply HP. by right.
      * eexists. split; [done|]. cbn [map fst]. split; [constructor; [rewrite Hk2; naive_solver|done]|].
        split; [intros k2; rewrite !elem_of_cons, Hk2; naive_solver|].
        intros k2 vs' [[= -> ->]|Hx]%elem_of_cons; [|by apply HP2]. right. split; [done|]. apply HP; [by left|done].
Qed.

Lemma group_nil_no keys k rows : (forall r, r ∈ rows -> ~ has_key keys r k) -> group keys k rows = [].
Proof.
  intros H. unfold group. induction rows as [|r rows IH]; [done|]. cbn. destruct (has_key_dec keys r k) as [Hk|].
  - exfalso. apply (H r); [by left|done].
  - apply IH. intros r' Hr. apply H. by right.
Qed.

Lemma step_ok keys aggs rows r k gs : gs_ok keys aggs rows gs -> key_of keys r = Some k ->
  Forall (fun a => agg_ok a (group keys k (rows ++ [r]))) aggs ->
  exists gs2, add_row aggs k r gs = Some gs2 /\ gs_ok keys aggs (rows ++ [r]) gs2.
Proof.
  intros (Hnd & Hk & Hv) Er Hf. apply key_of_has in Er. rewrite group_snoc in Hf. destruct (has_key_dec keys r k) as [_|]; [|done].
  destruct (add_row_ok aggs k r (fun k' vs => Forall2 (fun a v => agg_state a (group keys k' rows) v) aggs vs)
              (fun vs => Forall2 (fun a v => agg_state a (group keys k rows ++ [r]) v) aggs vs) gs) as (gs2 & E & Hnd2 & Hk2 & Hv2).
  - intros vs Hx. apply agg_row_ok; [by apply Hv|done].
  - intros Hx. apply agg_row_ok; [|done]. rewrite group_nil_no.
    + clear. induction aggs as [|a l IH]; constructor; [apply agg_state_nil|done].
    + intros r' Hr Hk'. apply Hx, Hk. by exists r'.
  - done.
  - intros k' vs Hx _. by apply Hv.
  - exists gs2. split; [done|]. split; [done|]. split.
    + intros k'. rewrite Hk2, Hk. split.
      * intros [->|(r' & Hr & Hk')]; [exists r|exists r']; (split; [apply elem_of_app|done]); [right; by apply elem_of_list_singleton|by left].
      * intros (r' & [Hr|Hr]%elem_of_app & Hk'); [right; by exists r'|]. apply elem_of_list_singleton in Hr. subst r'. left. by eapply has_key_det.
    + intros k' vs Hx. rewrite group_snoc. destruct (Hv2 k' vs Hx) as [[-> HQ]|[Hne HP]].
      * destruct (has_key_dec keys r k); done.
      * destruct (has_key_dec keys r k') as [Hk'|]; [by destruct Hne; eapply has_key_det|]. by rewrite app_nil_r.
Qed.

Lemma loop_ok keys aggs : forall more rows gs, gs_ok keys aggs rows gs ->
  Forall (fun r => exists k, has_key keys r k) more ->
  (forall k, Forall (fun a => agg_ok a (group keys k (rows ++ more))) aggs) ->
  exists gs2, agg_loop keys aggs (map Row more) gs = GOk gs2 /\ gs_ok keys aggs (rows ++ more) gs2.
Proof.
  induction more as [|r more IH]; intros rows gs Hg Hk Hf; cbn [map agg_loop]; [exists gs; by rewrite app_nil_r|].
  apply Forall_cons in Hk as [[k Hk] Hks]. pose proof Hk as Er. apply key_of_has in Er. rewrite Er.
  replace (rows ++ r :: more) with ((rows ++ [r]) ++ more) in * by (by rewrite <- app_assoc).
  destruct (step_ok keys aggs rows r k gs Hg Er) as (gs2 & -> & Hg2).
  - eapply Forall_impl; [apply (Hf k)|]. intros a. cbn. unfold group. rewrite List.filter_app. apply ok_prefix.
  - by apply IH.
Qed.

Lemma gs_ok_nil keys aggs : gs_ok keys aggs [] [].
Proof.
  split; [constructor|]. split; [|by intros k vs ?%elem_of_nil]. intros k. split; [by intros ?%elem_of_nil|].
  intros (r & ?%elem_of_nil & _). done.
Qed.
