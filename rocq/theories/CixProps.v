(** C129: CREATE INDEX makes the index asked for, or says that it did not. *)
From Coq Require Import NArith List Bool Lia Arith.
From Verif Require Import CixSpec CixModel.
Import ListNotations.

Lemma name_eqb_spec a b : reflect (a = b) (name_eqb a b).
Proof. unfold name_eqb. destruct (list_eq_dec N.eq_dec a b); constructor; assumption. Qed.
Lemma name_eqb_refl a : name_eqb a a = true.
Proof. destruct (name_eqb_spec a a); congruence. Qed.
Lemma find_table_some n ts t : find_table n ts = Some t -> In t ts /\ t_name t = n.
Proof.
  intros H. apply find_some in H as [A B]. split; [exact A|]. destruct (name_eqb_spec (t_name t) n); [assumption|discriminate].
Qed.
Lemma find_table_in n ts t : NoDup (map t_name ts) -> In t ts -> t_name t = n -> find_table n ts = Some t.
Proof.
  unfold find_table. induction ts as [|x ts IH]; intros ND I E; [destruct I|]. cbn in ND |- *. inversion_clear ND as [|? ? A B].
  destruct (name_eqb_spec (t_name x) n) as [X|X].
  - destruct I as [->|I]; [reflexivity|]. exfalso. apply A. rewrite X, <- E. apply in_map. exact I.
  - destruct I as [->|I]; [contradiction|]. apply IH; assumption.
Qed.
Lemma column_index_ok c cs : match column_index c cs with
  | Some i => i < length cs /\ nth i cs [] = c | None => ~ In c cs end.
Proof.
  induction cs as [|x cs IH]; cbn; [tauto|]. destruct (name_eqb_spec x c) as [E|E]; [cbn; split; [lia|exact E]|].
  destruct (column_index c cs); [split; [lia|tauto]|tauto].
Qed.
Lemma key_attrs_ok cols cs : match key_attrs cols cs with
  | Some l => columns_at l cs = cols /\ Forall (fun i => i < length cs) l | None => ~ forall c, In c cols -> In c cs end.
Proof.
  induction cols as [|c cols IH]; cbn; [split; [reflexivity|constructor]|]. pose proof (column_index_ok c cs) as K.
  destruct (column_index c cs) as [i|]; [|intros H; apply K, H; left; reflexivity].
  destruct (key_attrs cols cs) as [l|].
  - destruct IH as [A B], K as [K1 K2]. split; [unfold columns_at in *; cbn [map]; rewrite K2, A; reflexivity|constructor; assumption].
  - intros H. apply IH. intros x Hx. apply H. right. exact Hx.
Qed.
Lemma build_ok s c : NoDup (map t_name (c_tables c)) ->
  match build s c with
  | Some p => sensible (c_tables c) s /\ p_name p = index_name s /\ p_table p = s_table s /\
      exists t, find_table (s_table s) (c_tables c) = Some t /\ columns_at (p_attrs p) (t_cols t) = s_cols s /\
        Forall (fun i => i < length (t_cols t)) (p_attrs p)
  | None => ~ sensible (c_tables c) s
  end.
Proof.
  intros ND. unfold build. destruct (find_table (s_table s) (c_tables c)) as [t|] eqn:F.
  - destruct (find_table_some _ _ _ F) as [I E]. pose proof (key_attrs_ok (s_cols s) (t_cols t)) as K.
    destruct (key_attrs (s_cols s) (t_cols t)) as [l|].
    + destruct K as [K1 K2]. cbn. split; [|split; [reflexivity|split; [reflexivity|exists t; auto]]].
      exists t. split; [exact I|]. split; [exact E|]. intros x Hx. rewrite <- K1 in Hx. unfold columns_at in Hx.
      apply in_map_iff in Hx as (i & <- & Hi). apply nth_In. rewrite Forall_forall in K2. apply K2. exact Hi.
    + intros (t' & I' & E' & H). apply K. intros x Hx. rewrite (find_table_in _ _ t' ND I' E') in F. injection F as ->. auto.
  - intros (t' & I' & E' & H). rewrite (find_table_in _ _ t' ND I' E') in F. discriminate.
Qed.

(** A statement about a table or column that does not exist is refused, and nothing happens; any
    other is answered as done. *)
Theorem c129_refused s c : NoDup (map t_name (c_tables c)) ->
  (~ sensible (c_tables c) s -> create_index s c = (Refused, c)) /\
  (sensible (c_tables c) s -> fst (create_index s c) = Done).
Proof.
  intros ND. pose proof (build_ok s c ND) as B. unfold create_index. destruct (build s c); split; intros H; try reflexivity; tauto.
Qed.

(** If the name is free, the index is there afterwards, on the columns named, and all others are
    as before.  It is never unique. *)
Theorem c129_made_partial s c : NoDup (map t_name (c_tables c)) -> sensible (c_tables c) s ->
  (forall x, In x (seen c) -> x_name x <> index_name s) ->
  create_index s c = (Done, snd (create_index s c)) /\
  seen (snd (create_index s c)) = seen c ++ [Idx (index_name s) (s_table s) (s_cols s) false] /\
  c_tables (snd (create_index s c)) = c_tables c.
Proof.
  intros ND S Fr. pose proof (build_ok s c ND) as B. unfold create_index. destruct (build s c) as [p|]; [|contradiction].
  destruct B as (_ & Pn & Pt & t & F & Cl & _). cbn [snd]. split; [reflexivity|].
  assert (X : forall f, existsb (fun i => f i && name_eqb (i_name i) (index_name s)) (c_indexes c) = false).
  { intros f. destruct (existsb _ _) eqn:E; [|reflexivity]. exfalso. apply existsb_exists in E as (i & I & H).
    apply andb_true_iff in H as [_ H]. destruct (name_eqb_spec (i_name i) (index_name s)) as [Q|]; [|discriminate].
    unfold seen in Fr. eapply Fr; [apply in_map; exact I|exact Q]. }
  unfold execute, db_create. rewrite Pt, Pn, F, (X (fun i => name_eqb (i_table i) (s_table s))).
  pose proof (X (fun _ => true)) as X2. cbn [andb] in X2. rewrite X2. cbn [c_tables]. split; [|reflexivity].
  unfold seen. cbn [c_tables c_indexes]. rewrite map_app. cbn [map i_name i_table i_attrs i_unique]. rewrite F, Cl. reflexivity.
Qed.
(** So UNIQUE is lost. *)
Theorem c129_unique_refuted s c : NoDup (map t_name (c_tables c)) -> sensible (c_tables c) s -> s_unique s = true ->
  (forall x, In x (seen c) -> x_name x <> index_name s) ->
  fst (create_index s c) = Done /\
  forall x, In x (seen (snd (create_index s c))) -> x_name x = index_name s -> x_unique x = false.
Proof.
  intros ND S U Fr. destruct (c129_made_partial s c ND S Fr) as (E & Sn & _). split; [rewrite E; reflexivity|].
  intros x Hx Nx. rewrite Sn in Hx. apply in_app_or in Hx as [Hx|[<-|[]]]; [exfalso; exact (Fr x Hx Nx)|reflexivity].
Qed.

(** If the name is taken, by whatever table's index, nothing happens, and the answer is that it
    was done: with IF NOT EXISTS as it should be, but also without. *)
Theorem c129_taken_refuted s c : NoDup (map t_name (c_tables c)) -> sensible (c_tables c) s ->
  (exists x, In x (seen c) /\ x_name x = index_name s) -> create_index s c = (Done, c).
Proof.
  intros ND S (x & Ix & Nx). pose proof (build_ok s c ND) as B. unfold create_index. destruct (build s c) as [p|]; [|contradiction].
  destruct B as (_ & Pn & Pt & t & F & _). f_equal. unfold execute, db_create. rewrite Pt, F, Pn.
  destruct (existsb (fun i => name_eqb (i_table i) (s_table s) && name_eqb (i_name i) (index_name s)) (c_indexes c)); [reflexivity|].
  assert (X : existsb (fun i => name_eqb (i_name i) (index_name s)) (c_indexes c) = true).
  { unfold seen in Ix. apply in_map_iff in Ix as (i & <- & I). cbn in Nx. apply existsb_exists. exists i. split; [exact I|].
    rewrite Nx. apply name_eqb_refl. }
  rewrite X. reflexivity.
Qed.

(** Over any history the names of indexes stay different, every index is on columns of its
    table, and no index once made changes. *)
Definition fine (c : catalog) : Prop :=
  NoDup (map t_name (c_tables c)) /\ NoDup (map x_name (seen c)) /\
  forall x, In x (seen c) -> exists t, In t (c_tables c) /\ t_name t = x_table x /\ forall k, In k (x_cols x) -> In k (t_cols t).
Lemma step_fine s c : fine c -> fine (snd (create_index s c)) /\ c_tables (snd (create_index s c)) = c_tables c /\
  exists more, seen (snd (create_index s c)) = seen c ++ more.
Proof.
  intros (T & Nm & W). destruct (c129_refused s c T) as [R1 _].
  assert (D : sensible (c_tables c) s \/ ~ sensible (c_tables c) s)
    by (pose proof (build_ok s c T); destruct (build s c); tauto).
  destruct D as [D|D].
  - assert (E : In (index_name s) (map x_name (seen c)) \/ ~ In (index_name s) (map x_name (seen c)))
      by (destruct (in_dec (list_eq_dec N.eq_dec) (index_name s) (map x_name (seen c))); tauto).
    destruct E as [E|E].
    + apply in_map_iff in E as (x & Nx & Ix). rewrite (c129_taken_refuted s c T D (ex_intro _ x (conj Ix Nx))). cbn [snd].
      split; [split; auto|]. split; [reflexivity|]. exists []. rewrite app_nil_r. reflexivity.
    + assert (Fr : forall x, In x (seen c) -> x_name x <> index_name s) by (intros x Ix Nx; apply E; rewrite <- Nx; apply in_map; exact Ix).
      destruct (c129_made_partial s c T D Fr) as (_ & Sn & Tb). split; [|split; [exact Tb|exists [Idx (index_name s) (s_table s) (s_cols s) false]; exact Sn]].
      unfold fine. rewrite Sn, Tb, map_app. split; [exact T|]. split.
      * cbn [map x_name]. apply (NoDup_Add (a := index_name s) (l := map x_name (seen c))); [|split; assumption].
        pose proof (Add_app (index_name s) (map x_name (seen c)) []) as A. rewrite app_nil_r in A. exact A.
      * intros x Ix. apply in_app_or in Ix as [Ix|[<-|[]]]; [apply W; exact Ix|]. cbn. destruct D as (t & I & E' & H). exists t. auto.
  - rewrite (R1 D). cbn [snd]. split; [split; auto|]. split; [reflexivity|]. exists []. rewrite app_nil_r. reflexivity.
Qed.
Theorem c129_history ts ss : NoDup (map t_name ts) ->
  let c := run ss (Cat ts []) in
  c_tables c = ts /\ NoDup (map x_name (seen c)) /\
  (forall x, In x (seen c) -> exists t, In t ts /\ t_name t = x_table x /\ forall k, In k (x_cols x) -> In k (t_cols t)) /\
  (forall before after, ss = before ++ after -> exists more, seen c = seen (run before (Cat ts [])) ++ more).
Proof.
  intros ND c. assert (G : forall ss c, fine c -> fine (run ss c) /\ c_tables (run ss c) = c_tables c /\ exists more, seen (run ss c) = seen c ++ more).
  { induction ss0 as [|s ss0 IH]; intros c0 F0.
    - split; [exact F0|]. split; [reflexivity|]. exists []. rewrite app_nil_r. reflexivity.
    - cbn [run fold_left]. destruct (step_fine s c0 F0) as (F1 & T1 & m1 & S1). destruct (IH _ F1) as (F2 & T2 & m2 & S2).
      split; [exact F2|]. split; [unfold run in T2; rewrite T2; exact T1|]. exists (m1 ++ m2). unfold run in S2. rewrite S2, S1, app_assoc. reflexivity. }
  assert (F0 : fine (Cat ts [])) by (split; [exact ND|]; split; [constructor|intros x []]).
  destruct (G ss _ F0) as ((_ & A & B) & T & _). fold c in A, B, T. split; [exact T|]. split; [exact A|]. split.
  - intros x Ix. destruct (B x Ix) as (t & I & H). exists t. rewrite T in I. split; [exact I|exact H].
  - intros bf af ->. destruct (G bf _ F0) as (F1 & _). destruct (G af _ F1) as (_ & _ & m & S). exists m. unfold c, run.
    rewrite fold_left_app. exact S.
Qed.

(** ** Names made up *)
Definition plain (c : name) : Prop := ~ In underscore c.
Lemma cut_eq a b x y : plain a -> plain b -> a ++ underscore :: x = b ++ underscore :: y -> a = b /\ x = y.
Proof.
  revert b. induction a as [|c a IH]; intros [|d b] A B E; cbn in E.
  - injection E as E. auto.
  - injection E as Ed E. exfalso. apply B. left. symmetry. exact Ed.
  - injection E as Ec E. exfalso. apply A. left. exact Ec.
  - injection E as -> E. destruct (IH b) as [-> ->]; auto; intros H; [apply A|apply B]; right; exact H.
Qed.
Lemma join_sep cs : forall ds, Forall plain cs -> Forall plain ds -> cs <> [] -> ds <> [] -> join cs = join ds -> cs = ds.
Proof.
  induction cs as [|c cs IH]; intros [|d ds] A B Nc Nd E; try congruence.
  inversion_clear A as [|? ? A1 A2]. inversion_clear B as [|? ? B1 B2].
  destruct cs as [|c2 cs], ds as [|d2 ds]; cbn [join] in E.
  - congruence.
  - exfalso. apply A1. rewrite E. apply in_or_app. right. left. reflexivity.
  - exfalso. apply B1. rewrite <- E. apply in_or_app. right. left. reflexivity.
  - destruct (cut_eq _ _ _ _ A1 B1 E) as [-> E2]. f_equal. apply IH; auto; discriminate.
Qed.
(** Where neither tables nor columns have an underscore in their name, indexes on different
    columns get different names. *)
Theorem c129_generated_partial s s' : s_name s = None -> s_name s' = None ->
  plain (s_table s) -> plain (s_table s') -> Forall plain (s_cols s) -> Forall plain (s_cols s') ->
  s_cols s <> [] -> s_cols s' <> [] ->
  index_name s = index_name s' -> s_table s = s_table s' /\ s_cols s = s_cols s'.
Proof.
  intros A B C D E F G H. unfold index_name. rewrite A, B. intros X. destruct (cut_eq _ _ _ _ C D X) as [T Y].
  split; [exact T|]. apply app_inv_tail in Y. apply join_sep; assumption.
Qed.
(** With underscores they may be the same: whatever the table [t] and the columns [a] and [b], an
    index on (a, b) has the name of one on the column a_b, and of one on b of the table t_a. *)
Theorem c129_generated_refuted t a b u e :
  index_name (Stmt None t [a; b] u e) = index_name (Stmt None t [a ++ underscore :: b] u e) /\
  index_name (Stmt None t [a; b] u e) = index_name (Stmt None (t ++ underscore :: a) [b] u e).
Proof.
  unfold index_name. cbn [s_name s_table s_cols join]. split; [reflexivity|].
  rewrite <- !app_assoc. reflexivity.
Qed.

(** ** Cases *)
Definition t1 : table := Table [116]%N [[97]; [98]; [97; 95; 98]]%N.
Definition on_ab : stmt := Stmt None [116]%N [[97]; [98]]%N true false.
Definition on_a_b : stmt := Stmt None [116]%N [[97; 95; 98]]%N false false.
Example c129_made_ex : sensible [t1] on_ab /\
  seen (snd (create_index on_ab (Cat [t1] []))) = [Idx [116; 95; 97; 95; 98; 95; 105; 100; 120]%N [116]%N [[97]; [98]]%N false].
Proof. split; [|reflexivity]. exists t1. cbn. repeat split; [auto|]. intros c. tauto. Qed.
Example c129_taken_ex : let c := snd (create_index on_ab (Cat [t1] [])) in create_index on_a_b c = (Done, c).
Proof. reflexivity. Qed.
Example c129_refused_ex : create_index (Stmt None [116]%N [[99]]%N false false) (Cat [t1] []) = (Refused, Cat [t1] []).
Proof. reflexivity. Qed.

Print Assumptions c129_refused.
Print Assumptions c129_made_partial.
Print Assumptions c129_unique_refuted.
Print Assumptions c129_taken_refuted.
Print Assumptions c129_history.
Print Assumptions c129_generated_partial.
Print Assumptions c129_generated_refuted.
