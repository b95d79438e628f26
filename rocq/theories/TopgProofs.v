(** The executors of TopgModel.v: groups, heaps and the loops of next. *)
From Coq Require Import Lia ZArith Sorted.
From stdpp Require Import list.
From Verif Require Import ExprModel ExprSpec ExecModel ExecSpec ExecProofs TopnModel HeapProofs TopnProofs HashJoinProofs
  TopgSpec TopgModel.
Local Open Scope nat_scope.

Lemma keys_eqb_true a : forall b, keys_eqb a b = true <-> a = b.
Proof.
  induction a as [|x a IH]; intros [|y b]; cbn; try (split; congruence).
  rewrite andb_true_iff, val_eqb_true, IH. split; [intros [-> ->]; done|intros [= -> ->]; done].
Qed.

Global Instance val_eq_decision : EqDecision val := val_eq_dec.

Section groups.
  Context {A H : Type}.

  Definition ofkey (k : list val) (l : list (list val * A)) : list A := snd <$> filter (fun x => x.1 = k) l.

  Lemma ofkey_app k l1 l2 : ofkey k (l1 ++ l2) = ofkey k l1 ++ ofkey k l2.
  Proof. unfold ofkey. by rewrite filter_app, fmap_app. Qed.
  Lemma ofkey_one k k2 a : ofkey k [(k2, a)] = if decide (k2 = k) then [a] else [].
  Proof. unfold ofkey. rewrite filter_cons. cbn. by destruct (decide (k2 = k)). Qed.
  Lemma ofkey_elem k l a : a ∈ ofkey k l <-> (k, a) ∈ l.
  Proof.
    unfold ofkey. rewrite elem_of_list_fmap. split.
    - intros ([k2 b] & -> & X). apply elem_of_list_filter in X as [X Y]. cbn in X. by subst.
    - intros X. exists (k, a). split; [done|]. by apply elem_of_list_filter.
  Qed.

  Context (R : list A -> list H -> Prop).
  Definition ginv (seen : list (list val * A)) (gs : list (list val * list H)) : Prop :=
    NoDup gs.*1 /\ (forall k h, (k, h) ∈ gs -> ofkey k seen <> [] /\ R (ofkey k seen) h) /\
    (forall x, x ∈ seen -> x.1 ∈ gs.*1).

  Lemma upd_entry_keys (f : list H -> list H) k gs :
    (upd_entry f k gs).*1 = if decide (k ∈ gs.*1) then gs.*1 else gs.*1 ++ [k].
  Proof.
    induction gs as [|[k2 h] gs IH]; cbn [upd_entry].
    - rewrite decide_False; [done|]. apply not_elem_of_nil.
    - destruct (keys_eqb k2 k) eqn:E.
      + apply keys_eqb_true in E as ->. cbn. rewrite decide_True; [done|]. by left.
      + cbn. rewrite IH. destruct (decide (k ∈ gs.*1)) as [X|X].
        * rewrite decide_True; [done|]. by right.
        * rewrite decide_False; [done|]. intros Y. apply elem_of_cons in Y as [->|Y]; [|done].
          rewrite (proj2 (keys_eqb_true k2 k2)) in E; [discriminate|done].
  Qed.

  Lemma upd_entry_elem (f : list H -> list H) k gs k2 h : NoDup gs.*1 -> (k2, h) ∈ upd_entry f k gs ->
    (k2 <> k /\ (k2, h) ∈ gs) \/ (k2 = k /\ exists h0, h = f h0 /\ (((k, h0) ∈ gs) \/ (h0 = [] /\ ~ k ∈ gs.*1))).
  Proof.
    induction gs as [|[k3 h3] gs IH]; cbn [upd_entry]; intros N X.
    - apply elem_of_list_singleton in X as [= -> ->]. right. split; [done|]. exists []. split; [done|]. right.
      split; [done|]. apply not_elem_of_nil.
    - cbn in N. apply NoDup_cons in N as [N1 N2]. destruct (keys_eqb k3 k) eqn:E.
      + apply keys_eqb_true in E as ->. apply elem_of_cons in X as [[= -> ->]|X].
        * right. split; [done|]. exists h3. split; [done|]. left. by left.
        * left. split; [|by right]. intros ->. destruct N1. apply elem_of_list_fmap. by exists (k, h).
      + assert (Ne : k3 <> k) by (intros Y; apply keys_eqb_true in Y; congruence).
        apply elem_of_cons in X as [[= -> ->]|X].
        * left. split; [done|]. by left.
        * destruct (IH N2 X) as [[Y Z]|(Y & h0 & -> & Z)].
          -- left. split; [done|]. by right.
          -- right. split; [done|]. exists h0. split; [done|]. destruct Z as [Z|[Z1 Z2]]; [left; by right|].
             right. split; [done|]. cbn. intros W. apply elem_of_cons in W as [W|W]; [congruence|done].
  Qed.

  Lemma upd_entry_inv (f : list H -> list H) (k : list val) (a : A) seen gs :
    ginv seen gs -> R [] [] -> (forall s h, R s h -> (forall b, b ∈ s -> (k, b) ∈ seen) -> R (s ++ [a]) (f h)) ->
    ginv (seen ++ [(k, a)]) (upd_entry f k gs).
  Proof.
    intros (N & G & S) R0 St. split; [|split].
    - rewrite upd_entry_keys. destruct (decide _) as [X|X]; [done|]. apply NoDup_app. split; [done|]. split.
      + intros x Hx Hk. apply elem_of_list_singleton in Hk as ->. done.
      + apply NoDup_singleton.
    - intros k2 h X. rewrite ofkey_app, ofkey_one. destruct (upd_entry_elem f k gs k2 h N X) as [[Ne Y]|(-> & h0 & -> & Y)].
      + rewrite decide_False by congruence. rewrite app_nil_r. by apply G.
      + rewrite decide_True by done. split; [intros Z; by apply app_nil in Z as [_ ?]|].
        destruct Y as [Y|[-> Y]].
        * apply St; [by apply G|]. intros b. by rewrite ofkey_elem.
        * assert (ofkey k seen = []) as ->.
          { destruct (ofkey k seen) as [|b l] eqn:E; [done|]. destruct Y. apply (S (k, b)).
            apply ofkey_elem. rewrite E. by left. }
          apply St; [done|]. intros b Hb. by apply elem_of_nil in Hb.
    - intros x Hx. rewrite upd_entry_keys. apply elem_of_app in Hx as [Hx|Hx]; [|apply elem_of_list_singleton in Hx as ->].
      + destruct (decide _); [by apply S|]. apply elem_of_app. left. by apply S.
      + destruct (decide _); [done|]. apply elem_of_app. right. by left.
  Qed.

  Lemma get_entry_elem k (gs : list (list val * list H)) : k ∈ gs.*1 -> exists h, get_entry k gs = Some h /\ (k, h) ∈ gs.
  Proof.
    induction gs as [|[k2 h] gs IH]; cbn; intros X; [by apply elem_of_nil in X|].
    destruct (keys_eqb k2 k) eqn:E.
    - apply keys_eqb_true in E as ->. exists h. split; [done|]. by left.
    - apply elem_of_cons in X as [->|X]; [rewrite (proj2 (keys_eqb_true k2 k2)) in E; [discriminate|done]|].
      destruct (IH X) as (h2 & Y & Z). exists h2. split; [done|]. by right.
  Qed.

  (** Putting the groups one after the other gives the rows. *)
  Lemma perm_groups ks (l : list (list val * A)) : NoDup ks -> (forall x, x ∈ l -> x.1 ∈ ks) ->
    l.*2 ≡ₚ concat ((fun k => ofkey k l) <$> ks).
  Proof.
    intros N. induction l as [|[k a] l IH]; intros S.
    - clear N S. induction ks; cbn; done.
    - rewrite fmap_cons. cbn [snd]. rewrite IH by (intros x Hx; apply S; by right).
      assert (X : k ∈ ks) by (apply (S (k, a)); by left).
      apply elem_of_list_split in X as (k1 & k2 & ->). apply NoDup_app in N as (N1 & N2 & N3).
      apply NoDup_cons in N3 as [N3 N4].
      assert (Q : forall ks0 : list (list val), ~ k ∈ ks0 -> (fun k0 => ofkey k0 ((k, a) :: l)) <$> ks0 = (fun k0 => ofkey k0 l) <$> ks0).
      { intros ks0 X. apply list_fmap_ext. intros i x Hx.
        change ((k, a) :: l) with ([(k, a)] ++ l). rewrite ofkey_app, ofkey_one.
        rewrite decide_False; [done|]. intros ->. apply X. by apply elem_of_list_lookup_2 in Hx. }
      rewrite !fmap_app, !concat_app, !fmap_cons. cbn [concat]. rewrite (Q k1), (Q k2); [|done|intros X; apply (N2 k X); by left].
      change ((k, a) :: l) with ([(k, a)] ++ l). rewrite ofkey_app, ofkey_one, decide_True by done. cbn [app].
      apply Permutation_middle.
  Qed.
End groups.

Lemma cmp_group_lex tys a b : typed_keys tys a -> typed_keys tys b -> cmp_group_keys a b = lex a b.
Proof.
  intros Ha. revert b. induction Ha as [|t x tys a Hx Ha IH]; intros b Hb; inversion Hb; subst; [done|].
  cbn [cmp_group_keys lex]. rewrite !(compare_op_val _ x y t) by assumption. rewrite <- IH by assumption.
  by destruct (val_cmp x y).
Qed.

(** As [before_desc_lex], ascending. *)
Lemma before_asc_lex es tys o a ko ka :
  keys_of es o = Some ko -> keys_of es a = Some ka -> typed_keys tys ko -> typed_keys tys ka ->
  before (map (fun e => (e, false)) es) o a -> lex ko ka = Datatypes.Lt.
Proof.
  intros Ko Ka To Ta (pre & e & d & post & x & y & E & Heq & Hx & Hy & L).
  revert pre ko ka tys E Heq Ko Ka To Ta. induction es as [|e0 es IH]; intros pre ko ka tys E Heq Ko Ka To Ta.
  { destruct pre; discriminate E. }
  cbn in Ko, Ka.
  destruct (eval e0 o) as [xo|] eqn:Eo; [|discriminate]. destruct (keys_of es o) as [ko'|] eqn:Ko'; [|discriminate].
  destruct (eval e0 a) as [xa|] eqn:Ea; [|discriminate]. destruct (keys_of es a) as [ka'|] eqn:Ka'; [|discriminate].
  injection Ko as <-. injection Ka as <-.
  inversion To as [|t ? tys' ? Tx To']; subst. inversion Ta as [|? ? ? ? Ty Ta']; subst.
  destruct pre as [|[e1 d1] pre].
  - cbn in E. injection E as -> <- _. rewrite Eo in Hx. rewrite Ea in Hy. injection Hx as ->. injection Hy as ->.
    cbn. rewrite (vless_cmp x y); [reflexivity| |exact L].
    right; right. congruence.
  - cbn in E. injection E as <- <- E. cbn.
    assert (xo = xa) as -> by (pose proof (Heq e0 false (or_introl eq_refl)); congruence).
    rewrite val_cmp_refl. eapply (IH pre); [exact E|intros ? ? ?; eapply Heq; right; eassumption|reflexivity..|exact To'|exact Ta'].
Qed.

Lemma keys_same es a b ka kb : keys_of es a = Some ka -> keys_of es b = Some kb -> same_keys es a b <-> ka = kb.
Proof.
  revert ka kb. induction es as [|e es IH]; cbn; intros ka kb Ka Kb.
  - injection Ka as <-. injection Kb as <-. split; [done|]. intros _ e [].
  - destruct (eval e a) as [x|] eqn:Ea; [|done]. destruct (keys_of es a) as [ka'|]; [|done].
    destruct (eval e b) as [y|] eqn:Eb; [|done]. destruct (keys_of es b) as [kb'|]; [|done].
    injection Ka as <-. injection Kb as <-. specialize (IH ka' kb' eq_refl eq_refl). split.
    + intros Q. pose proof (Q e (or_introl eq_refl)) as X. assert (x = y) as -> by congruence. f_equal.
      apply IH. intros e2 He. apply Q. by right.
    + intros [= -> ->] e2 [<-|He]; [congruence|]. by apply IH.
Qed.

Lemma plain_typed es rows : plain_keys es rows ->
  exists tys, forall r, r ∈ rows -> exists ks, keys_of es r = Some ks /\ typed_keys tys ks.
Proof.
  intros (tys & T). exists tys. intros r Hr. apply elem_of_list_In in Hr. specialize (T r Hr).
  clear Hr. induction T as [|t e tys es (v & Ev & Tv) T (ks & K & Tk)]; [exists []; split; [done|constructor]|].
  exists (v :: ks). cbn. rewrite Ev, K. split; [done|]. by constructor.
Qed.

Lemma nth_error_lookup {A} (l : list A) i : nth_error l i = l !! i.
Proof. revert i. induction l as [|x l IH]; intros [|i]; cbn; auto. Qed.

(** The groups found satisfy the specification. *)
Lemma groups_ok es (seen : list (list val * keyed)) ks : NoDup ks -> (forall x, x ∈ seen -> x.1 ∈ ks) ->
  (forall k, k ∈ ks -> ofkey k seen <> []) -> (forall x, x ∈ seen -> keys_of es x.2.2 = Some x.1) ->
  grouping es seen.*2.*2 ((fun k => (ofkey k seen).*2) <$> ks).
Proof.
  intros N S Ne K.
  assert (Kp : forall k a, a ∈ (ofkey k seen).*2 -> keys_of es a = Some k).
  { intros k a Ha. apply elem_of_list_fmap in Ha as (x & -> & Hx). apply ofkey_elem in Hx. exact (K _ Hx). }
  split.
  - rewrite (perm_groups ks seen N S). 
    clear. induction ks as [|k ks IH]; [done|]. cbn. rewrite fmap_app. by f_equiv.
  - intros p a b Hp Ha Hb. apply elem_of_list_In, elem_of_list_fmap in Hp as (k & -> & Hk).
    apply elem_of_list_In in Ha, Hb. by apply (keys_same es a b k k (Kp _ _ Ha) (Kp _ _ Hb)).
  - intros i j p q a b Ij Hp Hq Ha Hb Q. rewrite nth_error_lookup, list_lookup_fmap in Hp, Hq.
    destruct (ks !! i) as [k1|] eqn:E1; [|done]. destruct (ks !! j) as [k2|] eqn:E2; [|done].
    injection Hp as <-. injection Hq as <-. apply elem_of_list_In in Ha, Hb.
    apply (keys_same es a b k1 k2 (Kp _ _ Ha) (Kp _ _ Hb)) in Q. subst k2.
    apply Ij. exact (NoDup_lookup ks i j k1 N E1 E2).
  - intros p Hp. apply elem_of_list_In, elem_of_list_fmap in Hp as (k & -> & Hk). intros X.
    apply fmap_nil_inv in X. by apply (Ne k).
Qed.

Lemma groups_ascending es tys (seen : list (list val * keyed)) ks :
  (forall x, x ∈ seen -> keys_of es x.2.2 = Some x.1 /\ typed_keys tys x.1) ->
  StronglySorted (fun a b => cmp_group_keys a b <> Datatypes.Gt) ks ->
  groups_ascend es ((fun k => (ofkey k seen).*2) <$> ks).
Proof.
  intros K Ss i j p q a b Ij Hp Hq Ha Hb Bf. rewrite nth_error_lookup, list_lookup_fmap in Hp, Hq.
  destruct (ks !! i) as [k1|] eqn:E1; [|done]. destruct (ks !! j) as [k2|] eqn:E2; [|done].
  injection Hp as <-. injection Hq as <-. apply elem_of_list_In in Ha, Hb.
  apply elem_of_list_fmap in Ha as (x & -> & Hx). apply elem_of_list_fmap in Hb as (y & -> & Hy).
  apply ofkey_elem in Hx, Hy. destruct (K _ Hx) as [Kx Tx]. destruct (K _ Hy) as [Ky Ty]. cbn in *.
  pose proof (before_asc_lex es tys _ _ _ _ Ky Kx Ty Tx Bf) as L.
  assert (X : cmp_group_keys k1 k2 <> Datatypes.Gt).
  { clear - Ss Ij E1 E2. revert i j Ij E1 E2. induction Ss as [|k ks Ss IH F]; intros i j Ij E1 E2; [by rewrite lookup_nil in E1|].
    destruct j as [|j]; [lia|]. destruct i as [|i].
    - injection E1 as ->. rewrite Forall_forall in F. apply F. exact (elem_of_list_lookup_2 _ j _ E2).
    - apply (IH i j); [lia|done..]. }
  rewrite (cmp_group_lex tys) in X by done. rewrite (lex_anti k2 k1) in X. rewrite L in X. done.
Qed.

Lemma next_same {St T} (next : St -> outcome T * St) s1 s2 out : next s1 = next s2 -> produces next s2 out -> produces next s1 out.
Proof.
  intros E P. inversion P; subst.
  - eapply p_done. by rewrite E.
  - eapply p_fail. by rewrite E.
  - eapply p_row; [by rewrite E|done].
Qed.

Definition group_rows (gs : list (list val * list keyed)) (k : list val) : list row :=
  match get_entry k gs with
  | Some h => snd <$> sort_by (fun a b => cmp_keys (fst b) (fst a)) h
  | None => []
  end.

Lemma topg_produces gs b keys : forall cur,
  produces topg_next (TS gs keys cur b) (map Row (cur ++ concat (group_rows gs <$> keys))).
Proof.
  induction keys as [|k keys IH]; intros cur.
  - induction cur as [|t cur IHc]; [eapply p_done; reflexivity|]. cbn. eapply p_row; [reflexivity|]. exact IHc.
  - induction cur as [|t cur IHc].
    + apply (next_same _ _ (TS gs keys (group_rows gs k) b)); [|exact (IH _)].
      unfold topg_next, group_rows. cbn. by destruct (get_entry k gs).
    + cbn [app map]. eapply p_row; [reflexivity|]. exact IHc.
Qed.

Section topg.
  Context (tys : list tid) (n : nat) (ses ges : list expr).
  Definition TR (s h : list keyed) : Prop := Forall (okk tys) s /\ exists om, topn_inv n s h om.

  Lemma TR_nil : TR [] [].
  Proof.
    split; [constructor|]. exists []. split; [done|]. split; [|split; [by rewrite Nat.min_0_r|]].
    - intros i x y _ Hx. by rewrite lookup_nil in Hx.
    - intros a o Ha. by apply elem_of_nil in Ha.
  Qed.

  Lemma topg_fill_inv rows : forall seen gs gs2 ok,
    (forall r ks, r ∈ rows -> keys_of ses r = Some ks -> typed_keys tys ks) ->
    ginv TR seen gs -> topg_fill n ses ges (map Row rows) gs = Some (gs2, ok) ->
    ok = true /\ exists ext, ginv TR (seen ++ ext) gs2 /\ ext.*2.*2 = rows /\
      Forall (fun x => keys_of ges x.2.2 = Some x.1 /\ keys_of ses x.2.2 = Some x.2.1) ext.
  Proof.
    induction rows as [|r rows IH]; intros seen gs gs2 ok T I E; cbn in E.
    - injection E as <- <-. split; [done|]. exists []. rewrite app_nil_r. auto.
    - destruct (keys_of ses r) as [ks|] eqn:Ks; [|discriminate]. destruct (keys_of ges r) as [gk|] eqn:Kg; [|discriminate].
      assert (Ok : okk tys (ks, r)) by (apply (T r ks); [by left|done]).
      destruct (IH (seen ++ [(gk, (ks, r))]) (upd_entry (fun h => topn_step n h (ks, r)) gk gs) gs2 ok) as (-> & ext & I2 & E2 & F).
      + intros r2 ks2 Hr. apply T. by right.
      + apply upd_entry_inv; [exact I|exact TR_nil|]. intros s h [F (om & Q)] _.
        split; [apply Forall_app; split; [done|by constructor]|].
        destruct (topn_step_inv tys n s h om (ks, r)) as [om2 Q2]; [by constructor|done|]. by exists om2.
      + exact E.
      + split; [done|]. exists ((gk, (ks, r)) :: ext). rewrite <- app_assoc in I2. split; [exact I2|].
        split; [cbn; by rewrite E2|]. by constructor.
  Qed.
End topg.

(** A group's heap, sorted, is what was asked for. *)
Lemma topg_first_n tys n es (s : list keyed) h :
  (forall x, x ∈ s -> keys_of es x.2 = Some x.1) -> TR tys n s h ->
  first_n n (map (fun e => (e, true)) es) s.*2 (sort_by (fun a b => cmp_keys (fst b) (fst a)) h).*2.
Proof.
  intros K (F & om & P & _ & L & B). set (cmp := fun a b : keyed => cmp_keys (fst b) (fst a)).
  change (first_n n (map (fun e => (e, true)) es) s.*2 (sort_by cmp h).*2).
  pose proof (sort_perm cmp h) as Sp.
  assert (Fh : Forall (okk tys) h /\ Forall (okk tys) om) by (rewrite P in F; by apply Forall_app in F).
  destruct Fh as [Fh Fo].
  assert (Kh : forall x, x ∈ h -> keys_of es x.2 = Some x.1 /\ okk tys x).
  { intros x Hx. split; [apply K; rewrite P; apply elem_of_app; by left|]. rewrite Forall_forall in Fh. auto. }
  assert (Ko : forall x, x ∈ om -> keys_of es x.2 = Some x.1 /\ okk tys x).
  { intros x Hx. split; [apply K; rewrite P; apply elem_of_app; by right|]. rewrite Forall_forall in Fo. auto. }
  exists om.*2. split; [|split; [|split]].
  - rewrite <- fmap_app. by rewrite <- Sp, <- P.
  - transitivity (length (sort_by cmp h)); [apply fmap_length|]. rewrite <- (Permutation_length Sp), L. f_equal. symmetry. apply fmap_length.
  - assert (Q : StronglySorted (fun a b => cmp a b <> Datatypes.Gt) (sort_by cmp h)).
    { apply (sort_sorted cmp (okk tys)).
      - intros x y Ox Oy. unfold cmp. rewrite !(cmp_keys_lex tys) by done. apply lex_anti.
      - intros x y z Ox Oy Oz. unfold cmp. rewrite !(cmp_keys_lex tys) by done. intros A C.
        exact (lex_trans tys z.1 y.1 x.1 Oz Oy Ox C A).
      - done. }
    assert (Kq : forall x, x ∈ sort_by cmp h -> keys_of es x.2 = Some x.1 /\ okk tys x).
    { intros x Hx. apply Kh. by rewrite Sp. }
    revert Q Kq. generalize (sort_by cmp h). intros l Q. induction Q as [|a l Q IH F1]; intros Kq; cbn; [constructor|].
    constructor; [apply IH; intros x Hx; apply Kq; by right|]. apply Forall_forall. intros b Hb Bf.
    apply elem_of_list_fmap in Hb as (b2 & -> & Hb). rewrite Forall_forall in F1. apply (F1 b2 Hb).
    destruct (Kq a) as [Ka Oa]; [by left|]. destruct (Kq b2) as [Kb Ob]; [by right|].
    unfold cmp. rewrite (cmp_keys_lex tys) by done. exact (before_desc_lex es tys _ _ _ _ Kb Ka Ob Oa Bf).
  - intros a o Ha Ho Bf. apply elem_of_list_In, elem_of_list_fmap in Ha as (a2 & -> & Ha).
    apply elem_of_list_In, elem_of_list_fmap in Ho as (o2 & -> & Ho). rewrite <- Sp in Ha.
    destruct (Kh a2 Ha) as [Ka Oa]. destruct (Ko o2 Ho) as [Kb Ob]. apply (B a2 o2 Ha Ho).
    exact (before_desc_lex es tys _ _ _ _ Kb Ka Ob Oa Bf).
Qed.

Lemma ginv_nil {A H} (R : list A -> list H -> Prop) : ginv R [] [].
Proof.
  split; [constructor|]. split; [intros k h X; by apply elem_of_nil in X|]. intros x X. by apply elem_of_nil in X.
Qed.

Lemma Forall2_map_same {A B C} (P : B -> C -> Prop) (f : A -> B) (g : A -> C) l :
  (forall x, x ∈ l -> P (f x) (g x)) -> Forall2 P (f <$> l) (g <$> l).
Proof.
  induction l as [|x l IH]; intros X; cbn; constructor; [apply X; by left|]. apply IH. intros y Hy. apply X. by right.
Qed.

Lemma sorted_keys tys (l : list (list val)) : Forall (typed_keys tys) l ->
  StronglySorted (fun a b => cmp_group_keys a b <> Datatypes.Gt) (sort_by cmp_group_keys l).
Proof.
  intros F. apply (sort_sorted cmp_group_keys (typed_keys tys)); [| |done].
  - intros x y Ox Oy. rewrite !(cmp_group_lex tys) by done. apply lex_anti.
  - intros x y z Ox Oy Oz. rewrite !(cmp_group_lex tys) by done. by apply (lex_trans tys).
Qed.

Theorem topg_correct n ses ges order rows again st :
  (forall l, Permutation l (order l)) -> plain_keys ses rows -> (forall r, In r rows -> exists ks, keys_of ges r = Some ks) ->
  topg_start n ses ges order (map Row rows) again = Some st ->
  exists parts tops, grouping ges rows parts /\ Forall2 (first_n n (map (fun e => (e, true)) ses)) parts tops /\
    (plain_keys ges rows -> groups_ascend ges parts) /\
    produces topg_next st (map Row (concat tops)).
Proof.
  intros Po Ps Pg E. destruct (plain_typed ses rows Ps) as (tys & T).
  unfold topg_start, topg_init in E. cbn [ts_init ts_groups ts_keys ts_cur] in E.
  destruct (topg_fill n ses ges (map Row rows) []) as [[gs ok]|] eqn:Ef; [|discriminate].
  destruct (topg_fill_inv tys n ses ges rows [] [] gs ok) as (-> & seen & (N & G & S) & Es & F).
  - intros r ks Hr Hk. destruct (T r Hr) as (ks2 & X & Y). congruence.
  - apply ginv_nil.
  - exact Ef.
  - cbn in E. injection E as <-. cbn [app] in G, S. set (keys := sort_by cmp_group_keys (order gs.*1)).
    assert (Pk : gs.*1 ≡ₚ keys) by (unfold keys; by rewrite <- sort_perm).
    assert (Kk : forall k, k ∈ keys -> exists h, get_entry k gs = Some h /\ (k, h) ∈ gs).
    { intros k Hk. apply get_entry_elem. by rewrite Pk. }
    rewrite Forall_forall in F.
    exists ((fun k => (ofkey k seen).*2) <$> keys), (group_rows gs <$> keys). split; [|split; [|split]].
    + rewrite <- Es. apply groups_ok.
      * by rewrite <- Pk.
      * intros x Hx. rewrite <- Pk. by apply S.
      * intros k Hk. destruct (Kk k Hk) as (h & _ & X). by apply (G k h).
      * intros x Hx. by apply F.
    + apply Forall2_map_same. intros k Hk. destruct (Kk k Hk) as (h & X & Y). unfold group_rows. rewrite X.
      apply (topg_first_n tys); [|by apply G].
      intros x Hx. apply ofkey_elem in Hx. by apply (F (k, x)).
    + intros Pg2. destruct (plain_typed ges rows Pg2) as (gt & Tg).
      assert (Tt : forall x, x ∈ seen -> keys_of ges x.2.2 = Some x.1 /\ typed_keys gt x.1).
      { intros x Hx. destruct (F x Hx) as [X _]. split; [done|].
        destruct (Tg x.2.2) as (ks & Y & Z); [|congruence]. rewrite <- Es. apply elem_of_list_fmap. exists x.2.
        split; [done|]. apply elem_of_list_fmap. by exists x. }
      apply (groups_ascending ges gt); [done|]. apply (sorted_keys gt). apply Forall_forall. intros k Hk.
      rewrite <- Po in Hk. apply elem_of_list_fmap in Hk as ([k2 h] & -> & Hk). cbn.
      destruct (G k2 h Hk) as [X _]. destruct (ofkey k2 seen) as [|x l] eqn:Eo; [done|].
      assert (X2 : x ∈ ofkey k2 seen) by (rewrite Eo; by left). apply (Tt (k2, x)). by apply ofkey_elem.
    + apply (topg_produces gs true keys []).
Qed.

(** Popping the heap sorts. *)
Section pops.
  Context (tys : list tid).
  Lemma push_all (l : list keyed) : forall h, Forall (okk tys) l -> Forall (okk tys) h -> heap rev_le h ->
    heap rev_le (foldl (fun h x => heap_push rev_le x h) h l) /\ foldl (fun h x => heap_push rev_le x h) h l ≡ₚ l ++ h.
  Proof.
    induction l as [|x l IH]; intros h Fl Fh Hh; cbn; [done|]. apply Forall_cons in Fl as [Fx Fl].
    destruct (IH (heap_push rev_le x h)) as [A B]; [done| | |].
    - rewrite heap_push_perm. by constructor.
    - apply (heap_push_heap rev_le (okk tys) (rl_total tys) (rl_trans tys)); assumption.
    - split; [done|]. rewrite B. rewrite heap_push_perm. symmetry. apply Permutation_middle.
  Qed.
  Lemma pop_all_sorted fuel : forall h, length h <= fuel -> Forall (okk tys) h -> heap rev_le h ->
    pop_all fuel h ≡ₚ h /\ StronglySorted (fun a b => lex a.1 b.1 <> Datatypes.Gt) (pop_all fuel h).
  Proof.
    induction fuel as [|fuel IH]; intros h L F Hh; destruct h as [|x h]; cbn in L; try lia; cbn [pop_all].
    1,2: split; [done|constructor].
    destruct (heap_pop_spec rev_le (okk tys) (rl_total tys) (rl_trans tys) (rl_refl tys) x h F Hh) as [PP PH].
    destruct (IH (heap_pop rev_le (x :: h))) as [A B].
    - rewrite (Permutation_length PP). lia.
    - rewrite PP. by apply Forall_cons in F as [? ?].
    - done.
    - split; [by rewrite A, PP|]. constructor; [done|]. apply Forall_forall. intros y Hy. rewrite A, PP in Hy.
      assert (Oy : okk tys y) by (rewrite Forall_forall in F; apply F; by right).
      apply (rev_le_true tys); [done|by apply Forall_cons in F as [? ?]|].
      apply (heap_root rev_le (okk tys) (rl_trans tys) (rl_refl tys) x h y F Hh). by right.
  Qed.
  Lemma heap_sorted_spec (l : list keyed) : Forall (okk tys) l ->
    heap_sorted l ≡ₚ l /\ StronglySorted (fun a b => lex a.1 b.1 <> Datatypes.Gt) (heap_sorted l).
  Proof.
    intros F. unfold heap_sorted. destruct (push_all l [] F) as [A B]; [constructor|intros i x y _ Hx; by rewrite lookup_nil in Hx|].
    rewrite app_nil_r in B. destruct (pop_all_sorted (length l) _ (Nat.eq_le_incl _ _ (Permutation_length B))) as [C D];
      [by rewrite B|done|]. split; [by rewrite C|done].
  Qed.
End pops.

Section window.
  Context (tys : list tid) (w : window) (ws : list window).

  Lemma win_fill_inv rows : forall seen gs gs2 ok,
    ginv (fun s h : list keyed => h = s) seen gs -> win_fill (w :: ws) (map Row rows) gs = Some (gs2, ok) ->
    ok = true /\ exists ext, ginv (fun s h : list keyed => h = s) (seen ++ ext) gs2 /\ ext.*2.*2 = rows /\
      Forall (fun x => keys_of (w_partition w) x.2.2 = Some x.1 /\ keys_of (w_order w) x.2.2 = Some x.2.1) ext.
  Proof.
    induction rows as [|r rows IH]; intros seen gs gs2 ok I E; cbn in E.
    - injection E as <- <-. split; [done|]. exists []. rewrite app_nil_r. auto.
    - destruct (keys_of (w_partition w) r) as [gk|] eqn:Kg; [|discriminate].
      destruct (keys_of (w_order w) r) as [ks|] eqn:Ks; [|discriminate].
      destruct (IH (seen ++ [(gk, (ks, r))]) (upd_entry (fun h => h ++ [(ks, r)]) gk gs) gs2 ok) as (-> & ext & I2 & E2 & F).
      + apply upd_entry_inv; [exact I|done|]. intros s h -> _. done.
      + exact E.
      + split; [done|]. exists ((gk, (ks, r)) :: ext). rewrite <- app_assoc in I2. split; [exact I2|].
        split; [cbn; by rewrite E2|]. by constructor.
  Qed.
End window.

Lemma win_values_row_numbers ws i : Forall (fun w => w_fun w = WRowNumber) ws ->
  win_values ws i = Some (repeat (VInt Integer (Z.of_nat (i + 1))) (length ws)).
Proof. induction 1 as [|w ws W F IH]; cbn; [done|]. by rewrite W, IH. Qed.

Definition part_rows (parts : list (list val * list row)) (k : list val) : list row :=
  match get_entry k parts with Some l => l | None => [] end.

Lemma numbered_drop k l i r : l !! i = Some r ->
  numbered k (Z.of_nat i + 1) (drop i l) = (r ++ repeat (VInt Integer (Z.of_nat (i + 1))) k) ::
    numbered k (Z.of_nat (S i) + 1) (drop (S i) l).
Proof.
  intros E. rewrite (drop_S l r i E). cbn [numbered]. f_equal; [do 3 f_equal; lia|]. f_equal. lia.
Qed.

Lemma win_produces ws parts b keys : Forall (fun w => w_fun w = WRowNumber) ws ->
  (forall k, k ∈ keys -> exists l, get_entry k parts = Some l) -> forall i,
  produces (win_next ws) (WS parts keys i b)
    (map Row (match keys with
              | [] => []
              | k :: rest => numbered (length ws) (Z.of_nat i + 1) (drop i (part_rows parts k)) ++
                             concat ((fun k => numbered (length ws) 1 (part_rows parts k)) <$> rest)
              end)).
Proof.
  intros W. induction keys as [|k keys IH]; intros G i.
  - eapply p_done. reflexivity.
  - destruct (G k) as [l El]; [by left|]. remember (length l - i) as m eqn:M. revert i M.
    induction m as [|m IHm]; intros i M.
    + unfold part_rows at 1. rewrite El. rewrite drop_ge by lia. cbn [numbered app].
      apply (next_same _ _ (WS parts keys 0 b)).
      { unfold win_next. cbn [ws_parts ws_keys ws_index ws_init win_step]. rewrite El.
        assert (l !! i = None) as -> by (apply lookup_ge_None_2; lia). done. }
      assert (G2 : forall k0, k0 ∈ keys -> exists l, get_entry k0 parts = Some l) by (intros k0 Hk; apply G; by right).
      specialize (IH G2 0). destruct keys as [|k2 keys]; exact IH.
    + unfold part_rows at 1. rewrite El. destruct (l !! i) as [r|] eqn:Er; [|apply lookup_ge_None in Er; lia].
      rewrite (numbered_drop _ l i r Er). cbn [app map]. eapply p_row.
      * unfold win_next. cbn [ws_parts ws_keys ws_index ws_init win_step]. rewrite El, Er.
        rewrite (win_values_row_numbers ws i W). reflexivity.
      * replace (i + 1) with (S i) by lia. specialize (IHm (S i)). unfold part_rows at 1 in IHm. rewrite El in IHm.
        apply IHm. lia.
Qed.

Lemma get_entry_map {A B} (f : list A -> list B) k (gs : list (list val * list A)) :
  get_entry k ((fun '(k, l) => (k, f l)) <$> gs) = f <$> get_entry k gs.
Proof. induction gs as [|[k2 h] gs IH]; cbn; [done|]. by destruct (keys_eqb k2 k). Qed.

Theorem window_correct w ws order rows again st :
  (forall l, Permutation l (order l)) -> Forall (fun w => w_fun w = WRowNumber) (w :: ws) ->
  plain_keys (w_order w) rows -> (forall r, In r rows -> exists ks, keys_of (w_partition w) r = Some ks) ->
  win_start (w :: ws) order (map Row rows) again = Some st ->
  exists out, produces (win_next (w :: ws)) st (map Row out) /\
    row_numbers (length (w :: ws)) (w_partition w) (map (fun e => (e, false)) (w_order w)) rows out.
Proof.
  intros Po W Ps Pg E. destruct (plain_typed (w_order w) rows Ps) as (tys & T).
  unfold win_start, win_init in E. cbn [ws_init ws_index] in E.
  destruct (win_fill (w :: ws) (map Row rows) []) as [[gs ok]|] eqn:Ef; [|discriminate].
  destruct (win_fill_inv w ws rows [] [] gs ok) as (-> & seen & (N & G & S) & Es & F).
  - apply ginv_nil.
  - exact Ef.
  - cbn [ws_init] in E. injection E as <-. cbn [app] in G, S. set (keys := sort_by cmp_group_keys (order gs.*1)).
    assert (Pk : gs.*1 ≡ₚ keys) by (unfold keys; by rewrite <- sort_perm).
    set (parts := (fun '(k, l) => (k, (heap_sorted l).*2)) <$> gs).
    assert (Kk : forall k, k ∈ keys -> get_entry k parts = Some (heap_sorted (ofkey k seen)).*2 /\ ofkey k seen <> []).
    { intros k Hk. rewrite <- Pk in Hk. destruct (get_entry_elem k gs Hk) as (h & X & Y).
      destruct (G k h Y) as [Z ->]. split; [|done]. unfold parts.
      rewrite (get_entry_map (fun l => (heap_sorted l).*2)). by rewrite X. }
    rewrite Forall_forall in F.
    assert (Hp : forall k, k ∈ keys -> exists l, get_entry k parts = Some l) by (intros k Hk; eexists; by apply Kk).
    eexists. split; [exact (win_produces (w :: ws) parts true keys W Hp 0)|].
    exists ((fun k => (ofkey k seen).*2) <$> keys), ((fun k => (heap_sorted (ofkey k seen)).*2) <$> keys).
    split; [|split].
    + rewrite <- Es. apply groups_ok.
      * by rewrite <- Pk.
      * intros x Hx. rewrite <- Pk. by apply S.
      * intros k Hk. by apply Kk.
      * intros x Hx. by apply F.
    + apply Forall2_map_same. intros k Hk.
      assert (Ks : forall x, x ∈ ofkey k seen -> keys_of (w_order w) x.2 = Some x.1 /\ okk tys x).
      { intros x Hx. apply ofkey_elem in Hx. destruct (F (k, x) Hx) as [_ X]. split; [exact X|].
        destruct (T x.2) as (ks & Y & Z); [|unfold okk; cbn in X; congruence].
        rewrite <- Es. apply elem_of_list_fmap. exists x.
        split; [done|]. apply elem_of_list_fmap. by exists (k, x). }
      destruct (heap_sorted_spec tys (ofkey k seen)) as [A B]; [apply Forall_forall; intros x Hx; by apply Ks|].
      split; [by rewrite A|].
      assert (Kq : forall x, x ∈ heap_sorted (ofkey k seen) -> keys_of (w_order w) x.2 = Some x.1 /\ okk tys x).
      { intros x Hx. apply Ks. by rewrite <- A. }
      revert B Kq. generalize (heap_sorted (ofkey k seen)). intros l Q. induction Q as [|a l Q IH F1]; intros Kq; cbn; [constructor|].
      constructor; [apply IH; intros x Hx; apply Kq; by right|]. apply Forall_forall. intros b Hb Bf.
      apply elem_of_list_fmap in Hb as (b2 & -> & Hb). rewrite Forall_forall in F1. apply (F1 b2 Hb).
      destruct (Kq a) as [Ka Oa]; [by left|]. destruct (Kq b2) as [Kb Ob]; [by right|].
      rewrite (lex_anti b2.1 a.1). by rewrite (before_asc_lex (w_order w) tys _ _ _ _ Kb Ka Ob Oa Bf).
    + assert (Q : forall ks, (forall k, k ∈ ks -> k ∈ keys) ->
        concat ((fun k => numbered (length (w :: ws)) 1 (part_rows parts k)) <$> ks) =
        concat (map (numbered (length (w :: ws)) 1) ((fun k => (heap_sorted (ofkey k seen)).*2) <$> ks))).
      { induction ks as [|k ks IH]; intros Hk; [done|]. rewrite !fmap_cons. cbn [concat map]. rewrite IH.
        - f_equal. unfold part_rows. destruct (Kk k) as [-> _]; [apply Hk; by left|]. done.
        - intros k2 H2. apply Hk. by right. }
      rewrite <- Q by auto. clear. destruct keys; done.
Qed.

Lemma push_all_perm (l : list keyed) : forall h, foldl (fun h x => heap_push rev_le x h) h l ≡ₚ l ++ h.
Proof.
  induction l as [|x l IH]; intros h; cbn; [done|]. rewrite IH, heap_push_perm. symmetry. apply Permutation_middle.
Qed.
Lemma heap_sorted_some l : l <> [] -> exists x r, heap_sorted l = x :: r.
Proof.
  intros Ne. unfold heap_sorted. pose proof (push_all_perm l []) as P. rewrite app_nil_r in P.
  destruct l as [|x l]; [done|]. destruct (foldl _ [] (x :: l)) as [|y h]; [apply Permutation_nil in P; done|].
  cbn. by exists y, (pop_all (length l) (heap_pop rev_le (y :: h))).
Qed.

Lemma win_unsupported w ws order rows again st :
  (forall l, Permutation l (order l)) -> (forall i, win_values (w :: ws) i = None) -> rows <> [] ->
  win_start (w :: ws) order (map Row rows) again = Some st -> produces (win_next (w :: ws)) st [Fail].
Proof.
  intros Po V Ne E. unfold win_start, win_init in E. cbn [ws_init ws_index] in E.
  destruct (win_fill (w :: ws) (map Row rows) []) as [[gs ok]|] eqn:Ef; [|discriminate].
  destruct (win_fill_inv w ws rows [] [] gs ok (ginv_nil _) Ef) as (-> & seen & (N & G & S) & Es & F).
  cbn [ws_init] in E. injection E as <-. cbn [app] in G, S.
  assert (Pk : gs.*1 ≡ₚ sort_by cmp_group_keys (order gs.*1)) by (by rewrite <- sort_perm).
  destruct (sort_by cmp_group_keys (order gs.*1)) as [|k ks].
  - apply Permutation_sym, Permutation_nil in Pk. rewrite Pk in S. destruct seen as [|y seen]; [by subst rows|].
    assert (X : y.1 ∈ @nil (list val)) by (apply S; by left). by apply elem_of_nil in X.
  - assert (Ik : k ∈ gs.*1) by (rewrite Pk; by left). destruct (get_entry_elem k gs Ik) as (h & Eh & Hh).
    destruct (G k h Hh) as [Hn ->]. destruct (heap_sorted_some _ Hn) as (x & r & Er).
    eapply p_fail. unfold win_next. cbn [ws_parts ws_keys ws_index win_step].
    rewrite (get_entry_map (fun l => (heap_sorted l).*2)). rewrite Eh. cbn [fmap option_fmap option_map]. rewrite Er.
    cbn [fmap list_fmap lookup list_lookup]. rewrite V. reflexivity.
Qed.
