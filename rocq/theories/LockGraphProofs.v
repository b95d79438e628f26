(** * Proofs about the deadlock detector *)
From stdpp Require Import gmap list sets fin_sets.
From Coq Require Import NArith Lia.
From Verif Require Import LockModel LockSpec.

Section graph.
Context (g : gmap N (list N)).

(** Finished transactions, newest first: each one's successors finished before it. *)
Inductive topo : list N -> Prop :=
| topo_nil : topo []
| topo_cons x l : x ∉ l -> (forall y, edge g x y -> y ∈ l) -> topo l -> topo (x :: l).

Lemma topo_closed l x y : topo l -> x ∈ l -> edge g x y -> y ∈ l.
Proof.
  induction 1 as [|z l Hz Hs Ht IH]; intros Hx He; [by apply elem_of_nil in Hx|].
  apply elem_of_cons in Hx as [->|Hx]; apply elem_of_cons; right; auto.
Qed.

Lemma chain_in l a p : topo l -> a ∈ l -> chain g a p -> forall x, x ∈ p -> x ∈ l.
Proof.
  intros Ht. revert a. induction p as [|b p IH]; intros a Ha Hc x Hx; [by apply elem_of_nil in Hx|].
  destruct Hc as [He Hc]. pose proof (topo_closed _ _ _ Ht Ha He) as Hb.
  apply elem_of_cons in Hx as [->|Hx]; [done|eauto].
Qed.

Lemma chain_last a p : chain g a p -> forall l, topo l -> a ∈ l -> List.last (a :: p) a ∈ l.
Proof.
  intros Hc l Ht Ha. destruct p as [|b p]; [done|].
  assert (List.last (a :: b :: p) a ∈ b :: p).
  { clear. change (List.last (a :: b :: p) a) with (List.last (b :: p) a).
    revert b. induction p as [|c p IH]; intros b; [simpl; apply elem_of_list_singleton; done|].
    change (List.last (b :: c :: p) a) with (List.last (c :: p) a).
    apply elem_of_cons. right. apply IH. }
  eauto using chain_in.
Qed.

(** [a ->+ b] *)
Definition reach := tc (edge g).

Lemma chain_reach a p x : chain g a p -> x ∈ p -> reach a x.
Proof.
  revert a. induction p as [|b p IH]; intros a Hc Hx; [by apply elem_of_nil in Hx|].
  destruct Hc as [He Hc]. apply elem_of_cons in Hx as [->|Hx].
  - by apply tc_once.
  - eapply tc_l; eauto. by apply IH.
Qed.

Lemma last_in (a d : N) p : List.last (a :: p) d ∈ a :: p.
Proof.
  revert a. induction p as [|b p IH]; intros a; [simpl; apply elem_of_list_singleton; done|].
  change (List.last (a :: b :: p) d) with (List.last (b :: p) d).
  apply elem_of_cons. right. apply IH.
Qed.

Lemma cycle_reach c : cycle g c -> exists a, a ∈ c /\ reach a a.
Proof.
  destruct c as [|a l]; [done|]. intros [Hc He]. exists a. split; [left|].
  pose proof (last_in a a l) as Hl. apply elem_of_cons in Hl as [Hl|Hl].
  - rewrite Hl in He. by apply tc_once.
  - eapply tc_r; [eapply chain_reach; eauto|done].
Qed.

Lemma topo_reach l x y : topo l -> x ∈ l -> reach x y -> y ∈ l.
Proof.
  intros Ht Hx Hr. revert Hx. induction Hr as [x y He|x y z He Hr IH]; intros Hx.
  - eauto using topo_closed.
  - apply IH. eauto using topo_closed.
Qed.

Lemma topo_acyclic l x : topo l -> x ∈ l -> ~ reach x x.
Proof.
  induction 1 as [|z l Hz Hs Ht IH]; intros Hx Hr; [by apply elem_of_nil in Hx|].
  apply elem_of_cons in Hx as [->|Hx]; [|by apply IH].
  apply Hz. inversion Hr as [? ? He|? w ? He Hr2]; subst; [eauto|].
  eapply topo_reach; [done| |exact Hr2]. eauto.
Qed.

(** The path, newest first. *)
Fixpoint rchain (a : N) (p : list N) : Prop :=
  match p with
  | [] => True
  | b :: p => edge g b a /\ rchain b p
  end.

Lemma list_max_spec (d : N) l : d ∈ l -> youngest (list_max d l) l.
Proof.
  assert (G : forall l, (forall x, x ∈ l -> (x <= list_max d l)%N) /\ (d <= list_max d l)%N /\
            (list_max d l = d \/ list_max d l ∈ l)).
  { clear l. intros l. induction l as [|a l IH]; simpl.
    - repeat split; [intros x Hx; by apply elem_of_nil in Hx|lia|by left].
    - destruct IH as (I1 & I2 & I3). repeat split.
      + intros x Hx. apply elem_of_cons in Hx as [->|Hx]; [lia|]. specialize (I1 x Hx). lia.
      + lia.
      + destruct (N.max_spec a (list_max d l)) as [[? ->]|[? ->]].
        * destruct I3 as [->|I3]; [by left|right; by right].
        * right. left. }
  intros Hd. destruct (G l) as (G1 & G2 & G3). split; [|done].
  destruct G3 as [->|G3]; done.
Qed.

Lemma chain_app a p b q : chain g a p -> edge g (List.last (a :: p) a) b -> chain g b q ->
  chain g a (p ++ b :: q).
Proof.
  revert a. induction p as [|c p IH]; intros a Hc He Hq; [done|].
  destruct Hc as [H1 H2]. split; [done|]. apply IH; [done| |done].
  assert (E : forall d e, List.last (c :: p) d = List.last (c :: p) e).
  { clear. revert c. induction p as [|x p IH]; intros c d e; [done|]. simpl in *. apply (IH x). }
  change (List.last (a :: c :: p) a) with (List.last (c :: p) a) in He. by rewrite (E c a).
Qed.

(** The part of the path up to [next], reversed, is a cycle. *)
Lemma upto_cycle a p next : rchain a p -> next ∈ a :: p -> edge g a next ->
  exists c, cycle g c /\ c ≡ₚ upto next (a :: p).
Proof.
  intros Hr Hin He.
  assert (G : forall p a, rchain a p -> next ∈ a :: p ->
     exists l, upto next (a :: p) ≡ₚ next :: l /\ chain g next l /\ List.last (next :: l) next = a).
  { clear. intros p. induction p as [|b p IH]; intros a Hr Hin.
    - apply elem_of_list_singleton in Hin as ->. exists []. simpl. rewrite N.eqb_refl. done.
    - cbn [upto]. destruct (N.eqb_spec a next) as [->|Hne]; [exists []; done|].
      destruct Hr as [He Hr]. apply elem_of_cons in Hin as [Hin|Hin]; [congruence|].
      destruct (IH b Hr Hin) as (l & P & C & L). exists (l ++ [a]). split; [|split].
      + change (if N.eqb b next then [b] else b :: upto next p) with (upto next (b :: p)).
        rewrite P. rewrite Permutation_swap. apply Permutation_skip. apply Permutation_cons_append.
      + apply chain_app; [done| |done]. by rewrite L.
      + clear. change (next :: l ++ [a]) with ((next :: l) ++ [a]). apply List.last_last. }
  destruct (G p a Hr Hin) as (l & P & C & L). exists (next :: l). split; [|by symmetry].
  split; [done|]. by rewrite L.
Qed.

Lemma upto_in next p : next ∈ p -> next ∈ upto next p.
Proof.
  induction p as [|a p IH]; intros Hin; [by apply elem_of_nil in Hin|]. simpl.
  destruct (N.eqb_spec a next) as [->|Hne]; [left|]. right. apply IH.
  apply elem_of_cons in Hin as [->|]; done.
Qed.

Definition set_eq (V : gset N) (l : list N) : Prop := forall x, x ∈ V <-> x ∈ l.

Definition dfs_ok (path L : list N) (curr : N) (res : option (N + gset N)) : Prop :=
  match res with
  | None => False
  | Some (inl v) => exists c, cycle g c /\ youngest v c
  | Some (inr V2) => exists L2, topo (curr :: L2) /\ set_eq V2 (path ++ curr :: L2) /\
                       (forall x, x ∈ L -> x ∈ L2) /\ (forall x, x ∈ path -> x ∉ curr :: L2)
  end.

Definition nodes : gset N := graph_nodes g.

Lemma edge_nodes a b : edge g a b -> a ∈ nodes /\ b ∈ nodes.
Proof.
  intros (l & Hl & Hb). unfold nodes, graph_nodes. split; apply elem_of_union.
  - left. apply elem_of_dom. eauto.
  - right. apply elem_of_list_to_set. apply elem_of_list_In, in_concat. exists l. split; [|by apply elem_of_list_In].
    apply elem_of_list_In, elem_of_list_fmap. exists (a, l). split; [done|]. by apply elem_of_map_to_list.
Qed.

Lemma edge_default a b : edge g a b <-> b ∈ default [] (g !! a).
Proof.
  split.
  - intros (l & -> & Hb). done.
  - destruct (g !! a) as [l|] eqn:E; [|intros H; by apply elem_of_nil in H].
    intros H. by exists l.
Qed.

Lemma dfs_edges_ok fuel curr path :
  (forall next L V, next ∉ V -> next ∈ nodes -> rchain next (curr :: path) -> topo L ->
     set_eq V ((curr :: path) ++ L) -> (forall x, x ∈ curr :: path -> x ∉ L) ->
     (size (nodes ∖ V) < fuel)%nat ->
     dfs_ok (curr :: path) L next (dfs fuel g next (curr :: path) V)) ->
  rchain curr path -> curr ∉ path ->
  forall es L V,
  (forall y, edge g curr y -> y ∈ L \/ y ∈ es) ->
  (forall y, y ∈ es -> edge g curr y) ->
  topo L -> set_eq V ((curr :: path) ++ L) -> (forall x, x ∈ curr :: path -> x ∉ L) ->
  (size (nodes ∖ V) < fuel)%nat ->
  dfs_ok path L curr
    (dfs_edges (fun next v => dfs fuel g next (curr :: path) v) (curr :: path) es V).
Proof.
  intros IH Hr Hcp es. induction es as [|next es IHes]; intros L V Hall Hsub Ht HV Hdis Hf; simpl.
  - exists L. split; [|split; [|split]].
    + constructor; [apply Hdis; left| |done]. intros y Hy. destruct (Hall y Hy) as [|H]; [done|].
      by apply elem_of_nil in H.
    + intros x. rewrite (HV x). rewrite !elem_of_app, !elem_of_cons. tauto.
    + done.
    + intros x Hx H. apply elem_of_cons in H as [->|H]; [done|]. apply (Hdis x); [by right|done].
  - case_bool_decide as Hon.
    + assert (He : edge g curr next) by (apply Hsub; left).
      destruct (upto_cycle curr path next Hr Hon He) as (c & Hc & P). exists c. split; [done|].
      pose proof (list_max_spec next (upto next (curr :: path)) (upto_in _ _ Hon)) as [Y1 Y2].
      split; [by rewrite P|]. intros x Hx. apply Y2. by rewrite <- P.
    + assert (He : edge g curr next) by (apply Hsub; left).
      case_bool_decide as Hvis.
      * apply IHes; try done; [|intros y Hy; apply Hsub; by right].
        intros y Hy. destruct (Hall y Hy) as [|H]; [by left|].
        apply elem_of_cons in H as [->|H]; [|by right]. left.
        apply HV in Hvis. apply elem_of_app in Hvis as [|]; done.
      * pose proof (IH next L V Hvis (proj2 (edge_nodes _ _ He)) (conj He Hr) Ht HV Hdis Hf) as G.
        destruct (dfs fuel g next (curr :: path) V) as [[v|V2]|]; [done| |done].
        destruct G as (L2 & T2 & HV2 & Hincl & Hd2).
        assert (S : size (nodes ∖ V2) < fuel).
        { eapply Nat.le_lt_trans; [|exact Hf]. apply subseteq_size. intros x Hx.
          apply elem_of_difference in Hx as [X1 X2]. apply elem_of_difference. split; [done|].
          intros X3. apply X2. apply HV2. apply HV in X3. apply elem_of_app in X3 as [X3|X3]; apply elem_of_app.
          - by left. - right. right. auto. }
        assert (R : dfs_ok path (next :: L2) curr
          (dfs_edges (fun next v => dfs fuel g next (curr :: path) v) (curr :: path) es V2)).
        { apply IHes; try done.
          - intros y Hy. destruct (Hall y Hy) as [H|H]; [left; right; auto|].
            apply elem_of_cons in H as [->|H]; [left; left|by right].
          - intros y Hy. apply Hsub. by right. }
        destruct (dfs_edges (fun next v => dfs fuel g next (curr :: path) v) (curr :: path) es V2) as [[v|V3]|]; [done| |done].
        destruct R as (L3 & T3 & HV3 & Hi3 & Hd3). exists L3. repeat split; try done; try (by apply HV3).
        intros x Hx. apply Hi3. right. auto.
Qed.

Lemma dfs_correct fuel : forall curr path L V,
  curr ∉ V -> curr ∈ nodes -> rchain curr path -> topo L -> set_eq V (path ++ L) ->
  (forall x, x ∈ path -> x ∉ L) -> (size (nodes ∖ V) < fuel)%nat ->
  dfs_ok path L curr (dfs fuel g curr path V).
Proof.
  induction fuel as [|fuel IH]; intros curr path L V HcV Hn Hr Ht HV Hdis Hf; [lia|].
  assert (HcL : curr ∉ L) by (intros H; apply HcV, HV, elem_of_app; by right).
  assert (Hcp : curr ∉ path) by (intros H; apply HcV, HV, elem_of_app; by left).
  cbn [dfs]. apply dfs_edges_ok; try done.
  - intros next L2 V2 H1 H2 H3 H4 H5 H6 H7. by apply IH.
  - intros y Hy. right. by apply edge_default.
  - intros y Hy. by apply edge_default.
  - intros x. rewrite elem_of_union, elem_of_singleton, (HV x), !elem_of_app, elem_of_cons. tauto.
  - intros x Hx. apply elem_of_cons in Hx as [->|Hx]; auto.
  - assert (S (size (nodes ∖ ({[curr]} ∪ V))) = size (nodes ∖ V)).
    {
      assert (E : nodes ∖ V = {[curr]} ∪ nodes ∖ ({[curr]} ∪ V)).
      { apply leibniz_equiv. intros x. destruct (decide (x = curr)) as [->|]; set_solver. }
      pose proof (size_union ({[curr]} : gset N) (nodes ∖ ({[curr]} ∪ V))) as U.
      rewrite E, U, size_singleton; [lia|set_solver]. }
    lia.
Qed.

Lemma find_cycle_from_ok fuel it : forall L V,
  topo L -> set_eq V L -> (size nodes < fuel)%nat -> (forall x, x ∈ it -> x ∈ nodes) ->
  match find_cycle_from fuel g it V with
  | None => False
  | Some (Some v) => exists c, cycle g c /\ youngest v c
  | Some None => exists L2, topo L2 /\ (forall x, x ∈ L \/ x ∈ it -> x ∈ L2)
  end.
Proof.
  induction it as [|t it IH]; intros L V Ht HV Hf Hit; simpl.
  - exists L. split; [done|]. intros x [H|H]; [done|by apply elem_of_nil in H].
  - case_bool_decide as Hv.
    + pose proof (IH L V Ht HV Hf (fun x Hx => Hit x (elem_of_list_further _ _ _ Hx))) as G.
      destruct (find_cycle_from fuel g it V) as [[v|]|]; [done| |done].
      destruct G as (L2 & T2 & G). exists L2. split; [done|]. intros x [H|H]; [auto|].
      apply elem_of_cons in H as [->|H]; [|auto]. apply G. left. by apply HV.
    + assert (G : dfs_ok [] L t (dfs fuel g t [] V)).
      { apply dfs_correct; try done; [apply Hit; left|intros x Hx; by apply elem_of_nil in Hx|].
        eapply Nat.le_lt_trans; [|exact Hf]. apply subseteq_size. set_solver. }
      destruct (dfs fuel g t [] V) as [[v|V2]|]; [done| |done].
      destruct G as (L2 & T2 & HV2 & Hi & _).
      pose proof (IH (t :: L2) V2 T2 HV2 Hf (fun x Hx => Hit x (elem_of_list_further _ _ _ Hx))) as G.
      destruct (find_cycle_from fuel g it V2) as [[v|]|]; [done| |done].
      destruct G as (L3 & T3 & G). exists L3. split; [done|]. intros x [H|H].
      * apply G. left. right. auto.
      * apply elem_of_cons in H as [->|H]; apply G; [left; left|by right].
Qed.

Lemma find_cycle_ok it : it ≡ₚ elements (dom g) ->
  match find_cycle g it with
  | None => False
  | Some (Some v) => exists c, cycle g c /\ youngest v c
  | Some None => forall c, ~ cycle g c
  end.
Proof.
  intros Hit. unfold find_cycle.
  assert (Hin : forall x, x ∈ it -> x ∈ nodes).
  { intros x Hx. rewrite Hit in Hx. apply elem_of_elements in Hx.
    unfold nodes, graph_nodes. set_solver. }
  assert (H0 : set_eq ∅ []).
  { intros x. split; intros H; [set_solver|by apply elem_of_nil in H]. }
  pose proof (find_cycle_from_ok (S (size (graph_nodes g))) it [] ∅ topo_nil H0
    (Nat.lt_succ_diag_r _) Hin) as G.
  destruct (find_cycle_from _ g it ∅) as [[v|]|]; [done| |done].
  destruct G as (L & T & G). intros c Hc. apply cycle_reach in Hc as (a & Ha & Hr).
  assert (a ∈ L).
  { apply G. right. rewrite Hit, elem_of_elements. apply elem_of_dom.
    inversion Hr as [? ? He|? ? ? He]; subst; destruct He as (l & He & _); eauto. }
  by apply (topo_acyclic L a).
Qed.
End graph.
