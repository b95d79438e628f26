(** C48: the hash join. *)
From Coq Require Import String ZArith NArith List Bool Arith Lia Permutation.
From Verif Require Import ExprModel ExprSpec ExecModel ExecSpec ExecProofs JoinModel JoinSpec JoinProofs
  JoinProps TopnModel TopnProofs HashJoinModel HashJoinProofs.
Import ListNotations.
Local Open Scope nat_scope.

(** The condition [lkey = rkey] of the nested-loop join. *)
Definition equi (lkey rkey : row -> res val) (l r : row) : res val :=
  bind (lkey l) (fun x => bind (rkey r) (fun y =>
    bind (perform_comparison ExprModel.Eq x y) (fun c => Ok (of_cmpbool c)))).

(** Keys that evaluate to non-NULL values of type [t]. *)
Definition keyed_by (key : row -> res val) (t : tid) (r : row) : Prop :=
  exists v, key r = Ok v /\ type_of v = Some t.

Lemma equi_true lkey rkey t l r x : lkey l = Ok x -> type_of x = Some t -> keyed_by rkey t r ->
  equi lkey rkey l r <> Err /\
  is_true_on (equi lkey rkey) l r = match rkey r with Ok y => val_eqb y x | Err => false end.
Proof.
  intros Hl Tx (y & Hr & Ty). unfold is_true_on, equi. rewrite Hl, Hr. cbn [bind].
  unfold perform_comparison. rewrite Tx, Ty. unfold tid_eqb. rewrite N.eqb_refl. cbn [bind].
  rewrite (compare_op_val _ x y t Tx Ty). split; [discriminate|].
  destruct (val_eqb y x) eqn:E.
  - apply val_eqb_true in E. subst y. rewrite val_cmp_refl. reflexivity.
  - destruct (val_cmp x y) eqn:C; cbn; try reflexivity.
    apply val_cmp_eq in C. subst y. rewrite (proj2 (val_eqb_true x x) eq_refl) in E. discriminate.
Qed.

(** C48, for distinct right keys: with keys of one type, none NULL, and no two right rows
    with the same key, the hash join returns exactly the rows the nested-loop join on
    [lkey = rkey] returns, and passes a failure of the left child on. Missing: duplicate and
    NULL keys and a failing right child, where it is false (below). *)
Theorem c48_hash_join_partial : forall lkey rkey t lw rw L (R : list (N * row)) (fails : bool) out,
  Forall (keyed_by lkey t) L -> Forall (keyed_by rkey t) (map snd R) ->
  NoDup (map fst R) -> NoDup (map (fun u => rkey (snd u)) R) ->
  produces (hj_next lkey) (hj_init rkey (map Row L ++ if fails then [Fail] else []) (map Row R)) out <->
  exists rows, out = map Row rows ++ (if fails then [Fail] else []) /\
    drains (jstep JInner (equi lkey rkey) lw rw (map Row (map snd R))) (jinit (map Row L)) (map Row rows).
Proof.
  intros lkey rkey t lw rw L R fails out FL FR N NK.
  rewrite Forall_forall in FL. rewrite Forall_map, Forall_forall in FR.
  assert (HR : forall u, In u R -> rkey (snd u) <> Err).
  { intros u Hu. destruct (FR u Hu) as (v & E & _). congruence. }
  pose proof (hj_drains lkey rkey L R fails HR N) as P.
  assert (HT : forall l r, In l L -> In r (map snd R) -> equi lkey rkey l r <> Err).
  { intros l r Hl Hr. destruct (FL l Hl) as (x & Ex & Tx). apply in_map_iff in Hr as (u & <- & Hu).
    exact (proj1 (equi_true lkey rkey t l (snd u) x Ex Tx (FR u Hu))). }
  set (rows := flat_map _ L) in P.
  assert (E : rows = inner_rows (is_true_on (equi lkey rkey)) L (map snd R)).
  { unfold rows, inner_rows. clear P rows HT. induction L as [|l L IH]; [reflexivity|]. cbn. f_equal.
    2: { apply IH. intros; apply FL; right; assumption. }
    destruct (FL l (or_introl eq_refl)) as (x & Ex & Tx). rewrite Ex. clear IH FL HR N.
    induction R as [|u R IH]; [reflexivity|]. cbn. inversion NK as [|? ? Nu NR]; subst.
    rewrite (proj2 (equi_true lkey rkey t l (snd u) x Ex Tx (FR u (or_introl eq_refl)))).
    unfold partner at 1. destruct (FR u (or_introl eq_refl)) as (y & Ey & Ty). rewrite Ey in *.
    destruct (val_eqb y x) eqn:Exy.
    - apply val_eqb_true in Exy. subst y. cbn. f_equal.
      assert (G : forall r, In r (map snd R) -> is_true_on (equi lkey rkey) l r = false).
      { intros r Hr. apply in_map_iff in Hr as (w & <- & Hw).
        rewrite (proj2 (equi_true lkey rkey t l (snd w) x Ex Tx (FR w (or_intror Hw)))).
        destruct (rkey (snd w)) as [z|] eqn:Ez; [|reflexivity].
        destruct (val_eqb z x) eqn:Q; [|reflexivity]. apply val_eqb_true in Q. subst z.
        destruct Nu. rewrite <- Ez. apply (in_map (fun u => rkey (snd u))). exact Hw. }
      clear -G. induction (map snd R) as [|r q IH]; [reflexivity|]. cbn.
      rewrite (G r (or_introl eq_refl)). apply IH. intros; apply G; right; assumption.
    - apply IH; [intros; apply FR; right; assumption|exact NR]. }
  rewrite E in P. split.
  - intros Q. exists (inner_rows (is_true_on (equi lkey rkey)) L (map snd R)).
    split; [exact (produces_fun _ _ _ Q _ P)|]. apply c47_inner; [exact HT|reflexivity].
  - intros (rows2 & -> & D). apply c47_inner in D; [|exact HT]. rewrite D. exact P.
Qed.
Print Assumptions c48_hash_join_partial.

Definition key0 (r : row) : res val := eval (ECol 0) r.
Definition L48 : list row := [ir [1; 10]%Z; ir [2; 20]%Z; ir [2; 21]%Z].
Definition R48 : list (N * row) := [(0%N, ir [2; 7]%Z); (1%N, ir [3; 8]%Z)].
Example c48_ex :
  Forall (keyed_by key0 (TInt Integer)) L48 /\ Forall (keyed_by key0 (TInt Integer)) (map snd R48) /\
  NoDup (map fst R48) /\ NoDup (map (fun u => key0 (snd u)) R48) /\
  produces (hj_next key0) (hj_init key0 (map Row L48 ++ []) (map Row R48))
    (map Row [ir [2; 20; 2; 7]%Z; ir [2; 21; 2; 7]%Z]).
Proof.
  assert (F : forall a b, keyed_by key0 (TInt Integer) (ir [a; b])) by (intros; eexists; split; reflexivity).
  assert (F1 : Forall (keyed_by key0 (TInt Integer)) L48) by (repeat constructor; apply F).
  assert (F2 : Forall (keyed_by key0 (TInt Integer)) (map snd R48)) by (repeat constructor; apply F).
  assert (N1 : NoDup (map fst R48)) by (constructor; [intros [X|[]]; discriminate X|constructor; [intros []|constructor]]).
  assert (N2 : NoDup (map (fun u => key0 (snd u)) R48))
    by (constructor; [intros [X|[]]; discriminate X|constructor; [intros []|constructor]]).
  split; [exact F1|]. split; [exact F2|]. split; [exact N1|]. split; [exact N2|].
  apply (c48_hash_join_partial key0 key0 (TInt Integer) 2 2 L48 R48 false); [exact F1|exact F2|exact N1|exact N2|].
  eexists. split; [symmetry; apply app_nil_r|]. apply c47_inner; [|reflexivity].
  intros l r Hl Hr. cbn in Hl, Hr. repeat destruct Hl as [<-|Hl]; try destruct Hl;
    repeat destruct Hr as [<-|Hr]; try destruct Hr; cbn; discriminate.
Qed.

(** C48 is false of the code: of several right rows with the same key, only the first is
    ever joined. *)
Theorem c48_duplicate_keys_refuted : exists lkey rkey t L (R : list (N * row)) out,
  Forall (keyed_by lkey t) L /\ Forall (keyed_by rkey t) (map snd R) /\ NoDup (map fst R) /\
  produces (hj_next lkey) (hj_init rkey (map Row L) (map Row R)) out /\
  length out < length (inner_rows (is_true_on (equi lkey rkey)) L (map snd R)).
Proof.
  exists key0, key0, (TInt Integer), [ir [2; 20]%Z], [(0%N, ir [2; 7]%Z); (1%N, ir [2; 8]%Z)], [Row (ir [2; 20; 2; 7]%Z)].
  assert (F : forall a b, keyed_by key0 (TInt Integer) (ir [a; b])) by (intros; eexists; split; reflexivity).
  split; [repeat constructor; apply F|]. split; [repeat constructor; apply F|].
  split; [constructor; [intros [X|[]]; discriminate X|constructor; [intros []|constructor]]|]. split.
  - eapply p_row; [reflexivity|]. eapply p_done. reflexivity.
  - cbn. lia.
Qed.
Print Assumptions c48_duplicate_keys_refuted.

(** C48 is false of the code: rows with NULL keys are joined. *)
Theorem c48_null_keys_refuted : exists lkey rkey L (R : list (N * row)) row,
  produces (hj_next lkey) (hj_init rkey (map Row L) (map Row R)) [Row row] /\
  inner_rows (is_true_on (equi lkey rkey)) L (map snd R) = [].
Proof.
  exists key0, key0, [[VNull]], [(0%N, [VNull])], [VNull; VNull]. split; [|reflexivity].
  eapply p_row; [reflexivity|]. eapply p_done. reflexivity.
Qed.
Print Assumptions c48_null_keys_refuted.

(** C48 is false of the code: when the right child fails, or a right key does, the join
    returns no rows and no error. *)
Theorem c48_right_error_refuted : forall lkey rkey L (R : list (N * row)),
  produces (hj_next lkey) (hj_init rkey (map Row L) (map Row R ++ [Fail])) [].
Proof.
  intros lkey rkey L R.
  assert (B : forall R ht ts, hj_build rkey (map Row R ++ [Fail]) ht ts = None).
  { clear. induction R as [|[rid r] R IH]; intros ht ts; [reflexivity|]. cbn. destruct (rkey r); auto. }
  eapply p_done. unfold hj_init. rewrite B. reflexivity.
Qed.
Print Assumptions c48_right_error_refuted.
