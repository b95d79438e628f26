(** Draining a hash join. *)
From Coq Require Import String ZArith NArith List Bool Lia.
From Verif Require Import ExprModel ExecModel ExecSpec ExecProofs JoinSpec HashJoinModel.
Import ListNotations.

Lemma val_eqb_true a b : val_eqb a b = true <-> a = b.
Proof.
  split.
  - destruct a as [|x|t x|x|x], b as [|y|u y|y|y]; cbn; try discriminate; intros H.
    + reflexivity.
    + apply eqb_prop in H. congruence.
    + apply andb_true_iff in H as [H1 H2]. apply Z.eqb_eq in H2. destruct t, u; try discriminate H1; congruence.
    + apply String.eqb_eq in H. congruence.
    + apply String.eqb_eq in H. congruence.
  - intros ->. destruct b; cbn; try reflexivity.
    + apply eqb_reflx.
    + rewrite N.eqb_refl, Z.eqb_refl. reflexivity.
    + apply String.eqb_refl.
    + apply String.eqb_refl.
Qed.

(** The first right tuple with the key. *)
Definition partner (rkey : row -> res val) (v : val) (t : rtuple) : bool :=
  match rkey (snd t) with Ok w => val_eqb w v | Err => false end.

Lemma hj_build_ok rkey : forall right ht ts,
  (forall t, In t right -> rkey (snd t) <> Err) ->
  hj_build rkey (map Row right) ht ts =
  Some (ht ++ map (fun t => (match rkey (snd t) with Ok v => v | Err => VNull end, fst t)) right, ts ++ right).
Proof.
  induction right as [|[rid r] right IH]; intros ht ts H; cbn; [rewrite !app_nil_r; reflexivity|].
  destruct (rkey r) as [v|] eqn:E; [|destruct (H (rid, r)); [left; reflexivity|exact E]].
  rewrite IH by (intros; apply H; right; assumption). cbn. rewrite <- !app_assoc. cbn.
  reflexivity.
Qed.

Lemma ht_get_partner rkey v : forall right, (forall t, In t right -> rkey (snd t) <> Err) ->
  ht_get (map (fun t => (match rkey (snd t) with Ok v => v | Err => VNull end, fst t)) right) v =
  option_map fst (find (partner rkey v) right).
Proof.
  unfold ht_get. induction right as [|t right IH]; intros H; [reflexivity|]. cbn. unfold partner at 1.
  destruct (rkey (snd t)) as [w|] eqn:E; [|destruct (H t); [left; reflexivity|exact E]].
  destruct (val_eqb w v); [reflexivity|]. apply IH. intros; apply H; right; assumption.
Qed.

Lemma find_rid (right : list rtuple) t : NoDup (map fst right) -> In t right ->
  find (fun u => N.eqb (fst u) (fst t)) right = Some t.
Proof.
  induction right as [|u right IH]; intros N Hin; [destruct Hin|]. inversion N as [|? ? Nu Nr]; subst. cbn.
  destruct (N.eqb (fst u) (fst t)) eqn:E.
  - apply N.eqb_eq in E. destruct Hin as [->|Hin]; [reflexivity|]. destruct Nu. rewrite E. apply in_map. exact Hin.
  - destruct Hin as [->|Hin]; [rewrite N.eqb_refl in E; discriminate|]. apply IH; assumption.
Qed.

(** What the hash join returns, when every key evaluates and RIDs are distinct: for each
    left row, the first right tuple with the same key. *)
Lemma hj_drains lkey rkey L R (fails : bool) :
  (forall t, In t R -> rkey (snd t) <> Err) -> NoDup (map fst R) ->
  produces (hj_next lkey) (hj_init rkey (map Row L ++ if fails then [Fail] else []) (map Row R))
    (map Row (flat_map (fun l => match lkey l with
                                 | Ok v => match find (partner rkey v) R with Some t => [l ++ snd t] | None => [] end
                                 | Err => []
                                 end) L) ++ if fails then [Fail] else []).
Proof.
  intros HR N. unfold hj_init. rewrite hj_build_ok by exact HR. cbn [app].
  set (ht := map _ R).
  assert (S : forall l rest, hj_next lkey (Some (ht, R), Row l :: rest) =
    match lkey l with
    | Ok v => match find (partner rkey v) R with
              | Some t => (ORow (l ++ snd t), (Some (ht, R), rest))
              | None => hj_next lkey (Some (ht, R), rest)
              end
    | Err => hj_next lkey (Some (ht, R), rest)
    end).
  { intros l rest. unfold hj_next. cbn [fst snd hj_scan]. destruct (lkey l) as [v|]; [|reflexivity].
    unfold ht. rewrite (ht_get_partner rkey v R HR). destruct (find (partner rkey v) R) as [t|] eqn:F; cbn; [|reflexivity].
    apply find_some in F as [F _]. rewrite (find_rid R t N F). destruct t. reflexivity. }
  assert (SK : forall l rest out, hj_next lkey (Some (ht, R), Row l :: rest) = hj_next lkey (Some (ht, R), rest) ->
    produces (hj_next lkey) (Some (ht, R), rest) out -> produces (hj_next lkey) (Some (ht, R), Row l :: rest) out).
  { intros l rest out E P. inversion P; subst.
    - eapply p_done. rewrite E. eassumption.
    - eapply p_fail. rewrite E. eassumption.
    - eapply p_row; [rewrite E; eassumption|assumption]. }
  induction L as [|l L IH].
  - destruct fails; [eapply p_fail; reflexivity|eapply p_done; reflexivity].
  - cbn [map app flat_map]. pose proof (S l (map Row L ++ if fails then [Fail] else [])) as E.
    destruct (lkey l) as [v|]; [destruct (find (partner rkey v) R) as [t|]|].
    + cbn. eapply p_row; [exact E|exact IH].
    + apply SK; [exact E|exact IH].
    + apply SK; [exact E|exact IH].
Qed.
