(** Lemmas for C98. *)
From Coq Require Import Strings.String Strings.Ascii ZArith List Bool Lia Arith Permutation Sorted.
From Verif Require Import ExprModel ExprSpec ExecModel ExecSpec ExecProofs NameModel NameSpec NameProofs QrySpec QryModel.
Import ListNotations.
Local Open Scope nat_scope.
Local Open Scope list_scope.

Lemma Forall2_weaken {A B} (P Q : A -> B -> Prop) l1 l2 :
  (forall a b, P a b -> Q a b) -> Forall2 P l1 l2 -> Forall2 Q l1 l2.
Proof. intros H. induction 1; constructor; auto. Qed.

Lemma Forall2_len {A B} (P : A -> B -> Prop) l1 l2 : Forall2 P l1 l2 -> length l1 = length l2.
Proof. induction 1; cbn; congruence. Qed.

(** ** Names *)

Lemma find_name cols c i : Forall dotless cols -> named cols c i -> parse_identifier cols c = Some i.
Proof.
  intros D [H U]. unfold parse_identifier, get_qualified_column_index, get_column_index.
  destruct (position (String.eqb c) cols) as [j|] eqn:P.
  - apply position_some in P as (x & Hx & Ex & _). apply String.eqb_eq in Ex. subst x.
    now rewrite (U j Hx).
  - rewrite position_none in P. apply nth_error_In in H. specialize (P c H).
    now rewrite String.eqb_refl in P.
Qed.

Lemma find_none cols c : Forall dotless cols -> dotless c -> ~ In c cols -> parse_identifier cols c = None.
Proof.
  intros D Dc H. unfold parse_identifier, get_qualified_column_index, get_column_index.
  replace (position (String.eqb c) cols) with (@None nat).
  2:{ symmetry. apply position_none. intros x Hx. apply String.eqb_neq. congruence. }
  pose proof Dc as D2. rewrite <- contains_dot_spec in D2. rewrite D2.
  apply position_none. intros x Hx. rewrite Forall_forall in D.
  rewrite split_dotless by auto. reflexivity.
Qed.

Lemma named_in cols c : NoDup cols -> In c cols -> exists i, named cols c i.
Proof.
  intros N H. apply In_nth_error in H as [i H]. exists i. split; [exact H|].
  intros j Hj. apply (proj1 (NoDup_nth_error cols) N); [|congruence].
  apply nth_error_Some. congruence.
Qed.

Lemma parse_denotes cols n : NoDup cols -> Forall dotless cols -> incl (mentions n) cols ->
  exists e, parse_expression cols n = Some e /\ denotes cols n e.
Proof.
  intros N D. induction n as [c|v|op a IHa b IHb|op a IHa b IHb|a IHa b IHb|a IHa b IHb|a IHa|k neg a IHa];
    cbn [mentions parse_expression]; intros I.
  - destruct (named_in cols c N) as [i Hi]; [apply I; now left|].
    rewrite (find_name cols c i D Hi). eexists. split; [reflexivity|]. now constructor.
  - eexists. split; [reflexivity|constructor].
  - apply incl_app_inv in I as [I1 I2].
    destruct (IHa I1) as (x & -> & Hx), (IHb I2) as (y & -> & Hy). eexists. split; [reflexivity|]. now constructor.
  - apply incl_app_inv in I as [I1 I2].
    destruct (IHa I1) as (x & -> & Hx), (IHb I2) as (y & -> & Hy). eexists. split; [reflexivity|]. now constructor.
  - apply incl_app_inv in I as [I1 I2].
    destruct (IHa I1) as (x & -> & Hx), (IHb I2) as (y & -> & Hy). eexists. split; [reflexivity|]. now constructor.
  - apply incl_app_inv in I as [I1 I2].
    destruct (IHa I1) as (x & -> & Hx), (IHb I2) as (y & -> & Hy). eexists. split; [reflexivity|]. now constructor.
  - destruct (IHa I) as (x & -> & Hx). eexists. split; [reflexivity|]. now constructor.
  - destruct (IHa I) as (x & -> & Hx). eexists. split; [reflexivity|]. now constructor.
Qed.

Lemma denotes_fun cols n e : denotes cols n e -> forall e2, denotes cols n e2 -> e = e2.
Proof.
  induction 1 as [c i [H U]|v|op a b x y _ IHa _ IHb|op a b x y _ IHa _ IHb|a b x y _ IHa _ IHb
    |a b x y _ IHa _ IHb|a x _ IHa|k neg a x _ IHa]; intros e2 H2; inversion H2; subst; clear H2.
  - f_equal. symmetry. apply U. match goal with X : named _ _ _ |- _ => apply X end.
  - reflexivity.
  - f_equal; auto.
  - f_equal; auto.
  - f_equal; auto.
  - f_equal; auto.
  - f_equal; auto.
  - f_equal; auto.
Qed.

(** ** WHERE *)

Lemma where_pass_true e r : where_pass e r = true <-> eval e r = Ok (VBool true).
Proof.
  unfold where_pass. split.
  - destruct (eval e r) as [[]|]; try discriminate. now intros ->.
  - now intros ->.
Qed.

Lemma satisfies_pass cols n e r : denotes cols n e ->
  (satisfies cols (Some n) r <-> where_pass e r = true).
Proof.
  intros D. rewrite where_pass_true. cbn. split.
  - intros (e2 & D2 & E). now rewrite (denotes_fun _ _ _ D _ D2).
  - intros E. now exists e.
Qed.

Lemma keeps_filter cols n e rows : denotes cols n e -> keeps cols (Some n) rows (filter (where_pass e) rows).
Proof.
  intros D. induction rows as [|r rows IH]; cbn; [constructor|].
  destruct (where_pass e r) eqn:E.
  - constructor; [|exact IH]. now apply (satisfies_pass _ _ _ _ D).
  - apply ks_no; [|exact IH]. rewrite (satisfies_pass _ _ _ _ D). congruence.
Qed.

Lemma keeps_all cols rows : keeps cols None rows rows.
Proof. induction rows; constructor; [exact I|assumption]. Qed.

Lemma keeps_in cols w rows kept : keeps cols w rows kept ->
  forall r, In r kept -> In r rows /\ satisfies cols w r.
Proof.
  induction 1 as [|r rows kept S K IH|r rows kept S K IH]; cbn; intros x Hx; [destruct Hx| |].
  - destruct Hx as [<-|Hx]; [auto|]. destruct (IH x Hx). auto.
  - destruct (IH x Hx). auto.
Qed.

(** ** The SELECT list *)

Definition name_of (text : nexpr -> string) (it : nexpr * option string) : string :=
  output_name text (fst it) (snd it).

Lemma star_names cols : NoDup cols -> Forall dotless cols ->
  forall pre rest, cols = pre ++ rest ->
  Forall2 (fun (it : nexpr * option string) (en : expr * string) => denotes cols (fst it) (fst en) /\
             forall text, snd en = name_of text it)
    (map (fun c => (NCol c, None)) rest)
    (combine (map ECol (seq (length pre) (length rest))) rest).
Proof.
  intros N D pre rest. revert pre. induction rest as [|c rest IH]; intros pre E; cbn; [constructor|].
  constructor.
  - cbn. split; [|reflexivity]. constructor. split.
    + rewrite E, nth_error_app2 by lia. now rewrite Nat.sub_diag.
    + intros j Hj. apply (proj1 (NoDup_nth_error cols) N).
      * apply nth_error_Some. congruence.
      * rewrite Hj. rewrite E, nth_error_app2 by lia. now rewrite Nat.sub_diag.
  - specialize (IH (pre ++ [c])). rewrite app_length in IH. cbn in IH. rewrite Nat.add_1_r in IH.
    apply IH. rewrite E. now rewrite <- app_assoc.
Qed.

Lemma projection_ok text cols items : NoDup cols -> Forall dotless cols ->
  (forall e a, In (IExpr e a) items -> incl (mentions e) cols) ->
  exists proj, projection text cols items = Some proj /\
    Forall2 (fun it en => denotes cols (fst it) (fst en) /\ snd en = name_of text it)
      (written_out cols items) proj.
Proof.
  intros N D. induction items as [|[|e a] items IH]; intros H.
  - exists []. split; [reflexivity|constructor].
  - destruct IH as (proj & E & F); [intros e a He; apply (H e a); now right|].
    cbn [projection]. rewrite E. eexists. split; [reflexivity|]. cbn [written_out flat_map].
    apply Forall2_app; [|exact F].
    pose proof (star_names cols N D [] cols eq_refl) as S. cbn [length] in S.
    unfold expand_star. eapply Forall2_weaken; [|exact S]. intros it en [? X]. auto.
  - destruct IH as (proj & E & F); [intros e2 a2 He; apply (H e2 a2); now right|].
    cbn [projection]. destruct (parse_denotes cols e N D) as (x & Ex & Dx); [apply (H e a); now left|].
    rewrite Ex, E. eexists. split; [reflexivity|]. cbn [written_out flat_map app].
    constructor; [|exact F]. cbn. auto.
Qed.

Lemma eval_all_ok cols (its : list (nexpr * option string)) es r :
  Forall2 (fun it e => denotes cols (fst it) e) its es ->
  (forall it, In it its -> exists e v, denotes cols (fst it) e /\ eval e r = Ok v) ->
  exists o, eval_all es r = Some o /\
    Forall2 (fun it v => exists e, denotes cols (fst it) e /\ eval e r = Ok v) its o.
Proof.
  induction 1 as [|it e its es D F IH]; intros H; cbn.
  - exists []. split; [reflexivity|constructor].
  - destruct IH as (o & -> & Fo); [intros it2 H2; apply H; now right|].
    destruct (H it (or_introl eq_refl)) as (e2 & v & D2 & E).
    rewrite (denotes_fun _ _ _ D _ D2), E. eexists. split; [reflexivity|].
    constructor; [|exact Fo]. eauto.
Qed.

Lemma project_produces es rows outs : Forall2 (fun r o => eval_all es r = Some o) rows outs ->
  produces (project_next es) (map Row rows) (map Row outs).
Proof.
  induction 1 as [|r o rows outs H F IH]; cbn [map].
  - eapply p_done. reflexivity.
  - eapply p_row; [|exact IH]. cbn. rewrite H. reflexivity.
Qed.

(** ** Running *)

Lemma runs_fun dbg rows p o1 : runs dbg rows p o1 -> forall o2, runs dbg rows p o2 -> o1 = o2.
Proof.
  induction 1 as [|e p i o R IH P|es p i o R IH P|p i o R IH P|specs p i o R IH P|m p i o R IH P|n p i o R IH P];
    intros o2 H2; inversion H2; subst; clear H2; [reflexivity|..];
    match goal with X : runs _ _ _ ?j |- _ => apply IH in X; subst j end;
    eapply produces_fun; eassumption.
Qed.

Lemma pull_rows {T} (rows : list T) : produces pull (map Row rows) (map Row rows).
Proof. apply (pull_produces rows []). Qed.

(** ** Sorting commutes with maps that keep the comparison *)

Lemma insert_by_map {A B} (f : A -> B) (ca : A -> A -> comparison) (cb : B -> B -> comparison) x l :
  (forall y, In y l -> cb (f x) (f y) = ca x y) ->
  insert_by cb (f x) (map f l) = map f (insert_by ca x l).
Proof.
  induction l as [|y l IH]; intros H; cbn; [reflexivity|].
  rewrite (H y (or_introl eq_refl)). destruct (ca x y); try reflexivity.
  cbn. rewrite IH; [reflexivity|]. intros z Hz. apply H. now right.
Qed.

Lemma sort_by_map {A B} (f : A -> B) (ca : A -> A -> comparison) (cb : B -> B -> comparison) l :
  (forall x y, In x l -> In y l -> cb (f x) (f y) = ca x y) ->
  sort_by cb (map f l) = map f (sort_by ca l).
Proof.
  induction l as [|x l IH]; intros H; cbn; [reflexivity|].
  rewrite IH by (intros; apply H; now right).
  apply insert_by_map. intros y Hy. apply H; [now left|]. right.
  eapply Permutation_in; [|exact Hy]. apply Permutation_sym, sort_perm.
Qed.

(** Comparing by columns that hold the same values. *)
Lemma cmp_rows_same s1 s2 a1 b1 a2 b2 :
  Forall2 (fun x y : order_by => snd x = snd y /\ eval (fst x) a1 = eval (fst y) a2 /\
                                 eval (fst x) b1 = eval (fst y) b2) s1 s2 ->
  cmp_rows s1 a1 b1 = cmp_rows s2 a2 b2.
Proof.
  induction 1 as [|[e1 d1] [e2 d2] s1 s2 (D & Ea & Eb) F IH]; [reflexivity|].
  cbn in D, Ea, Eb. subst d2. cbn. now rewrite Ea, Eb, IH.
Qed.

Lemma all_some_ok {A B} (f : A -> option B) l r :
  Forall2 (fun a b => f a = Some b) l r -> all_some (map f l) = Some r.
Proof. induction 1 as [|a b l r H F IH]; cbn; [reflexivity|]. now rewrite H, IH. Qed.

Lemma all_some_none {A B} (f : A -> option B) l a :
  In a l -> f a = None -> all_some (map f l) = None.
Proof.
  induction l as [|x l IH]; intros H E; [destruct H|]. cbn. destruct H as [->|H].
  - now rewrite E.
  - destruct (f x); [|reflexivity]. now rewrite (IH H E).
Qed.

Lemma Forall2_list {A B} (P : A -> B -> Prop) l : (forall a, In a l -> exists b, P a b) ->
  exists r, Forall2 P l r.
Proof.
  induction l as [|a l IH]; intros H; [exists []; constructor|].
  destruct (H a (or_introl eq_refl)) as [b Hb].
  destruct IH as [r Hr]; [intros x Hx; apply H; now right|]. exists (b :: r). now constructor.
Qed.

Lemma Forall2_combine_list {A B C} (P : A -> B -> Prop) (Q : A -> C -> Prop) l :
  (forall a, In a l -> exists b c, P a b /\ Q a c) ->
  exists r s, Forall2 P l r /\ Forall2 Q l s.
Proof.
  induction l as [|a l IH]; intros H; [exists [], []; split; constructor|].
  destruct (H a (or_introl eq_refl)) as (b & c & Hb & Hc).
  destruct IH as (r & s & Hr & Hs); [intros x Hx; apply H; now right|].
  exists (b :: r), (c :: s). split; now constructor.
Qed.

Lemma Forall2_in_l {A B} (P : A -> B -> Prop) l1 l2 a : Forall2 P l1 l2 -> In a l1 ->
  exists b, In b l2 /\ P a b.
Proof.
  induction 1 as [|x y l1 l2 H F IH]; intros I; [destruct I|]. destruct I as [->|I].
  - exists y. split; [now left|exact H].
  - destruct (IH I) as (b & ? & ?). exists b. split; [now right|assumption].
Qed.

Lemma Forall2_in_r {A B} (P : A -> B -> Prop) l1 l2 b : Forall2 P l1 l2 -> In b l2 ->
  exists a, In a l1 /\ P a b.
Proof.
  induction 1 as [|x y l1 l2 H F IH]; intros I; [destruct I|]. destruct I as [->|I].
  - exists x. split; [now left|exact H].
  - destruct (IH I) as (a & ? & ?). exists a. split; [now right|assumption].
Qed.

Lemma Forall2_nth {A B} (P : A -> B -> Prop) l1 l2 i a : Forall2 P l1 l2 -> nth_error l1 i = Some a ->
  exists b, nth_error l2 i = Some b /\ P a b.
Proof.
  intros F. revert i. induction F as [|x y l1 l2 H F IH]; intros [|i] E; cbn in *; try discriminate.
  - injection E as <-. eauto.
  - auto.
Qed.

Lemma Forall2_nth_r {A B} (P : A -> B -> Prop) l1 l2 i b : Forall2 P l1 l2 -> nth_error l2 i = Some b ->
  exists a, nth_error l1 i = Some a /\ P a b.
Proof.
  intros F. revert i. induction F as [|x y l1 l2 H F IH]; intros [|i] E; cbn in *; try discriminate.
  - injection E as <-. eauto.
  - auto.
Qed.

(** ** The parts of a legal query *)

Section Legal.
Context (text : nexpr -> string) (dbg : val -> string) (cols : list string) (q : query) (rows : list row).
Context (L : legal cols q) (Q : quiet text cols q) (C : computable cols q rows).

Lemma scanned_ok : exists before kept,
  (match q_where q with
   | None => Some PScan
   | Some w => option_map (fun e => PFilter e PScan) (parse_expression cols w)
   end) = Some before /\
  keeps cols (q_where q) rows kept /\ runs dbg rows before (map Row kept).
Proof.
  pose proof (lg_where _ _ L) as W. destruct (q_where q) as [w|].
  - destruct (parse_denotes cols w (lg_cols _ _ L) (lg_dotless _ _ L) W) as (e & E & D).
    rewrite E. exists (PFilter e PScan), (filter (where_pass e) rows).
    split; [reflexivity|]. split; [now apply keeps_filter|].
    eapply rn_filter; [constructor|]. pose proof (filter_produces e rows false) as P.
    now rewrite !app_nil_r in P.
  - exists PScan, rows. split; [reflexivity|]. split; [apply keeps_all|constructor].
Qed.

Lemma proj_ok : exists proj, projection text cols (q_items q) = Some proj /\
    Forall2 (fun it en => denotes cols (fst it) (fst en) /\ snd en = name_of text it)
      (written_out cols (q_items q)) proj.
Proof.
  apply projection_ok; [apply L|apply L|]. intros e a H. now apply (lg_items _ _ L e a).
Qed.

Lemma outs_ok proj kept : 
  Forall2 (fun it en => denotes cols (fst it) (fst en) /\ snd en = name_of text it)
      (written_out cols (q_items q)) proj ->
  keeps cols (q_where q) rows kept ->
  exists outs, Forall2 (shows cols (q_items q)) kept outs /\
    Forall2 (fun r o => eval_all (map fst proj) r = Some o) kept outs.
Proof.
  intros F K.
  assert (X : forall r, In r kept -> exists o, shows cols (q_items q) r o /\ eval_all (map fst proj) r = Some o).
  { intros r Hr. destruct (keeps_in _ _ _ _ K r Hr) as [Hin Hs].
    destruct (eval_all_ok cols (written_out cols (q_items q)) (map fst proj) r) as (o & E & Fo).
    - clear -F. induction F as [|it en its proj [D _] F IH]; cbn; constructor; auto.
    - intros it Hit. destruct C as (_ & C2 & _). now apply C2.
    - exists o. split; assumption. }
  clear K. induction kept as [|r kept IH]; [exists []; split; constructor|].
  destruct (X r (or_introl eq_refl)) as (o & H1 & H2).
  destruct IH as (outs & F1 & F2); [intros x Hx; apply X; now right|].
  exists (o :: outs). split; now constructor.
Qed.

Lemma alias_dotless it : In it (written_out cols (q_items q)) -> dotless (name_of text it).
Proof.
  intros H. destruct it as [e a]. unfold name_of. cbn [fst snd].
  destruct (called (e, a)) as [c|] eqn:E.
  2:{ destruct (Q e a H E) as [D _]. destruct a as [a|]; [discriminate E|].
      destruct e; try discriminate E; exact D. }
  apply in_flat_map in H as (it & Hi & H). destruct it as [|e2 a2].
  - apply in_map_iff in H as (c2 & [= <- <-] & Hc). cbn.
    pose proof (lg_dotless _ _ L) as D. rewrite Forall_forall in D. auto.
  - destruct H as [[= -> ->]|[]]. destruct (lg_items _ _ L e a Hi) as [M D].
    destruct a as [a|]; [exact D|]. destruct e; try discriminate E. cbn.
    pose proof (lg_dotless _ _ L) as D2. rewrite Forall_forall in D2. apply D2, M. now left.
Qed.

(** A key that is no result column's name is not found among the output names. *)
Lemma key_name_called it c k : In it (written_out cols (q_items q)) -> In k (q_order q) ->
  k_expr k = NCol c -> name_of text it = c -> called it = Some c.
Proof.
  intros H Hk Ek E. destruct it as [e a]. destruct (called (e, a)) as [n|] eqn:Cl.
  - destruct a as [a|]; cbn in *; [congruence|]. destruct e; cbn in *; congruence.
  - destruct (Q e a H Cl) as [_ X]. exfalso. apply (X k Hk).
    destruct a as [a|]; [discriminate Cl|]. destruct e; try discriminate Cl; cbn in E; congruence.
Qed.

Lemma called_name it c : called it = Some c -> name_of text it = c.
Proof. destruct it as [e [a|]]; cbn; [congruence|]. destruct e; cbn; congruence. Qed.

Lemma specs_results proj :
  Forall2 (fun it en => denotes cols (fst it) (fst en) /\ snd en = name_of text it)
      (written_out cols (q_items q)) proj ->
  orders_by_results cols q ->
  exists js, Forall2 (fun k j => key_means cols (q_items q) (k_expr k) (length cols + j) /\
                                 j < length (written_out cols (q_items q))) (q_order q) js /\
    parse_order_by (map snd proj) (q_order q) =
      Some (map (fun p => (ECol (snd p), k_desc (fst p))) (combine (q_order q) js)).
Proof.
  intros F R.
  assert (N : map snd proj = map (name_of text) (written_out cols (q_items q))).
  { clear -F. induction F as [|it en its proj [_ E] F IH]; cbn; congruence. }
  assert (D : Forall dotless (map snd proj)).
  { rewrite N. apply Forall_forall. intros x Hx. apply in_map_iff in Hx as (it & <- & Hi). now apply alias_dotless. }
  assert (X : forall k, In k (q_order q) -> exists j,
    (key_means cols (q_items q) (k_expr k) (length cols + j) /\ j < length (written_out cols (q_items q))) /\
    parse_expression (map snd proj) (k_expr k) = Some (ECol j)).
  { intros k Hk. destruct (R k Hk) as (c & j & it & Ek & Hj & Hc & U). exists j. rewrite Ek. split.
    - split; [now apply (km_out _ _ _ _ it)|]. apply nth_error_Some. congruence.
    - cbn. rewrite (find_name _ c j D); [reflexivity|]. rewrite N. split.
      + rewrite nth_error_map, Hj. cbn. now rewrite (called_name _ _ Hc).
      + intros j2 H2. rewrite nth_error_map in H2.
        destruct (nth_error (written_out cols (q_items q)) j2) as [it2|] eqn:E2; [|discriminate].
        injection H2 as E. apply (U j2 it2 E2). apply (key_name_called it2 c k); auto.
        eapply nth_error_In; eassumption. }
  clear R F D N. unfold parse_order_by. revert X. generalize (q_order q) as keys. clear.
  induction keys as [|k keys IH]; intros X.
  - exists []. split; [constructor|reflexivity].
  - destruct (X k (or_introl eq_refl)) as (j & P & E).
    destruct IH as (js & F & Ej); [intros x Hx; apply X; now right|].
    exists (j :: js). split; [now constructor|]. cbn. rewrite E. cbn. now rewrite Ej.
Qed.

Lemma specs_hidden proj :
  Forall2 (fun it en => denotes cols (fst it) (fst en) /\ snd en = name_of text it)
      (written_out cols (q_items q)) proj ->
  orders_by_hidden cols q ->
  exists js, Forall2 (fun k j => key_means cols (q_items q) (k_expr k) j /\ j < length cols) (q_order q) js /\
    parse_order_by (map snd proj) (q_order q) = None /\
    parse_order_by cols (q_order q) =
      Some (map (fun p => (ECol (snd p), k_desc (fst p))) (combine (q_order q) js)).
Proof.
  intros F [Ne R].
  assert (N : map snd proj = map (name_of text) (written_out cols (q_items q))).
  { clear -F. induction F as [|it en its proj [_ E] F IH]; cbn; congruence. }
  assert (D : Forall dotless (map snd proj)).
  { rewrite N. apply Forall_forall. intros x Hx. apply in_map_iff in Hx as (it & <- & Hi). now apply alias_dotless. }
  assert (X : forall k, In k (q_order q) -> exists j,
    (key_means cols (q_items q) (k_expr k) j /\ j < length cols) /\
    parse_expression cols (k_expr k) = Some (ECol j)).
  { intros k Hk. destruct (R k Hk) as (c & Ek & Hc & H). rewrite Ek.
    destruct (named_in cols c (lg_cols _ _ L) Hc) as [j Hj]. exists j. split.
    - split.
      + apply km_col; [exact Hj|]. intros it Hit E. apply H. now exists it.
      + apply nth_error_Some. destruct Hj. congruence.
    - cbn. now rewrite (find_name _ c j (lg_dotless _ _ L) Hj). }
  assert (Y : parse_order_by (map snd proj) (q_order q) = None).
  { unfold parse_order_by. destruct (q_order q) as [|k keys] eqn:Eq; [congruence|].
    destruct (R k (or_introl eq_refl)) as (c & Ek & Hc & H).
    apply all_some_none with (a := k); [now left|]. rewrite Ek. cbn.
    rewrite find_none; [reflexivity|exact D| |].
    - pose proof (lg_dotless _ _ L) as D2. rewrite Forall_forall in D2. auto.
    - rewrite N. intros Hin. apply in_map_iff in Hin as (it & E & Hit). apply H. exists it.
      split; [exact Hit|]. apply (key_name_called it c k); auto. rewrite Eq. now left. }
  assert (Z : exists js, Forall2 (fun k j => key_means cols (q_items q) (k_expr k) j /\ j < length cols) (q_order q) js /\
    parse_order_by cols (q_order q) =
      Some (map (fun p => (ECol (snd p), k_desc (fst p))) (combine (q_order q) js))).
  { clear -X. unfold parse_order_by. revert X. generalize (q_order q) as keys.
    induction keys as [|k keys IH]; intros X.
    - exists []. split; [constructor|reflexivity].
    - destruct (X k (or_introl eq_refl)) as (j & P & E).
      destruct IH as (js & F & Ej); [intros x Hx; apply X; now right|].
      exists (j :: js). split; [now constructor|]. cbn. rewrite E. cbn. now rewrite Ej. }
  destruct Z as (js & Z1 & Z2). exists js. auto.
Qed.

End Legal.

(** ** Rows of the table followed by rows of the result *)

Definition widen (kept outs : list row) : list row :=
  map (fun p => fst p ++ snd p) (combine kept outs).

Lemma widen_split n kept outs : Forall (fun r : row => length r = n) kept -> length kept = length outs ->
  map (skipn n) (widen kept outs) = outs /\ map (firstn n) (widen kept outs) = kept.
Proof.
  unfold widen. revert outs. induction kept as [|r kept IH]; intros [|o outs] F E; cbn in *; try discriminate.
  - auto.
  - inversion F as [|? ? Hr F2]; subst. destruct (IH outs F2) as [H1 H2]; [lia|].
    rewrite H1, H2, firstn_app, Nat.sub_diag, firstn_all, skipn_app, Nat.sub_diag, skipn_all.
    cbn. now rewrite app_nil_r.
Qed.

Lemma widen_in kept outs w : In w (widen kept outs) ->
  exists r o, In r kept /\ In o outs /\ w = r ++ o.
Proof.
  unfold widen. intros H. apply in_map_iff in H as ((r & o) & <- & H). exists r, o. split.
  - eapply in_combine_l; eassumption.
  - split; [eapply in_combine_r; eassumption|reflexivity].
Qed.

Definition by_columns (keys : list okey) (js : list nat) : list order_by :=
  map (fun p => (ECol (snd p), k_desc (fst p))) (combine keys js).

Lemma by_columns_in keys js e d : In (e, d) (by_columns keys js) -> exists j, In j js /\ e = ECol j.
Proof.
  unfold by_columns. intros H. apply in_map_iff in H as ((k & j) & [= <- <-] & H).
  exists j. split; [eapply in_combine_r; eassumption|reflexivity].
Qed.

Lemma by_columns_sortable keys js l m :
  (forall j, In j js -> j < m) -> (forall a, In a l -> length a = m) -> (forall i, one_type l i) ->
  sortable (by_columns keys js) l.
Proof.
  intros B Len O e d H. apply by_columns_in in H as (j & Hj & ->). cbn. split.
  - intros a Ha. destruct (nth_error a j) as [x|] eqn:E; [now exists x|].
    apply nth_error_None in E. rewrite (Len a Ha) in E. specialize (B j Hj). lia.
  - intros a b x y Ha Hb Ex Ey.
    destruct (nth_error a j) as [x2|] eqn:E1; [injection Ex as ->|discriminate].
    destruct (nth_error b j) as [y2|] eqn:E2; [injection Ey as ->|discriminate].
    destruct (O j a b x y Ha Hb E1 E2) as [-> | [-> | E]]; cbn; auto.
Qed.

Lemma widen_one_type n kept outs : (forall r, In r kept -> length r = n) ->
  (forall i, one_type kept i) -> (forall i, one_type outs i) -> forall i, one_type (widen kept outs) i.
Proof.
  intros Len O1 O2 i a b x y Ha Hb Ex Ey.
  apply widen_in in Ha as (r1 & o1 & Hr1 & Ho1 & ->). apply widen_in in Hb as (r2 & o2 & Hr2 & Ho2 & ->).
  destruct (lt_dec i n) as [Lt|Ge].
  - rewrite nth_error_app1 in Ex by (rewrite (Len r1 Hr1); lia).
    rewrite nth_error_app1 in Ey by (rewrite (Len r2 Hr2); lia). exact (O1 i r1 r2 x y Hr1 Hr2 Ex Ey).
  - rewrite nth_error_app2 in Ex by (rewrite (Len r1 Hr1); lia).
    rewrite nth_error_app2 in Ey by (rewrite (Len r2 Hr2); lia).
    rewrite (Len r1 Hr1) in Ex. rewrite (Len r2 Hr2) in Ey. exact (O2 (i - n) o1 o2 x y Ho1 Ho2 Ex Ey).
Qed.

Lemma nth_error_skipn {A} n (l : list A) j : nth_error (skipn n l) j = nth_error l (n + j).
Proof. revert l. induction n as [|n IH]; intros [|x l]; cbn; auto. now destruct j. Qed.

Lemma nth_error_firstn {A} n (l : list A) j : j < n -> nth_error (firstn n l) j = nth_error l j.
Proof.
  revert l j. induction n as [|n IH]; intros [|x l] [|j] H; cbn; auto; try lia. apply IH. lia.
Qed.

Lemma cmp_by_skip keys js n a b :
  cmp_rows (by_columns keys js) (skipn n a) (skipn n b) =
  cmp_rows (by_columns keys (map (Nat.add n) js)) a b.
Proof.
  apply cmp_rows_same. unfold by_columns. revert js.
  induction keys as [|k keys IH]; intros [|j js]; cbn [combine map]; try constructor.
  - cbn. now rewrite !nth_error_skipn.
  - apply IH.
Qed.

Lemma cmp_by_first keys js n a b : (forall j, In j js -> j < n) ->
  cmp_rows (by_columns keys js) (firstn n a) (firstn n b) = cmp_rows (by_columns keys js) a b.
Proof.
  intros B. apply cmp_rows_same. unfold by_columns. revert js B.
  induction keys as [|k keys IH]; intros [|j js] B; cbn [combine map]; try constructor.
  - cbn. rewrite !nth_error_firstn by (apply B; now left). auto.
  - apply IH. intros x Hx. apply B. now right.
Qed.

Lemma sort_by_nil (l : list row) : sort_by (cmp_rows []) l = l.
Proof. induction l as [|x l IH]; [reflexivity|]. cbn [sort_by]. rewrite IH. destruct l; reflexivity. Qed.

Lemma by_columns_spec (P : okey -> nat -> Prop) keys js :
  Forall2 P keys js ->
  Forall2 (fun k s => exists j, P k j /\ s = (ECol j, k_desc k)) keys (by_columns keys js).
Proof. unfold by_columns. induction 1; cbn; constructor; eauto. Qed.

Lemma by_columns_shift (P : okey -> nat -> Prop) n keys js :
  Forall2 (fun k j => P k (n + j)) keys js ->
  Forall2 (fun k s => exists i, P k i /\ s = (ECol i, k_desc k)) keys (by_columns keys (map (Nat.add n) js)).
Proof. unfold by_columns. induction 1; cbn; constructor; eauto. Qed.

(** ** LIMIT, OFFSET and FETCH *)
Lemma slice_runs text dbg cols q rows p l :
  build_select_plan text cols q = Some p -> runs dbg rows p (map Row l) ->
  exists p2, build_query_plan text cols q = Some p2 /\ runs dbg rows p2 (map Row (slice q l)).
Proof.
  intros E R. unfold build_query_plan, slice. rewrite E. cbn [option_map].
  eexists. split; [reflexivity|]. cbv zeta.
  assert (R1 : runs dbg rows (match q_offset q with Some m => POffset m p | None => p end)
                 (map Row (match q_offset q with Some m => skipn m l | None => l end))).
  { destruct (q_offset q) as [m|]; [|exact R]. eapply rn_offset; [exact R|].
    rewrite <- skip_items_rows. apply offset_produces; [apply pull_rows|lia]. }
  revert R1.
  generalize (match q_offset q with Some m => POffset m p | None => p end) as p1.
  generalize (match q_offset q with Some m => skipn m l | None => l end) as l1. intros l1 p1 R1.
  assert (R2 : runs dbg rows (match q_limit q with Some n => PLimit n p1 | None => p1 end)
                 (map Row (match q_limit q with Some n => firstn n l1 | None => l1 end))).
  { destruct (q_limit q) as [n|]; [|exact R1]. eapply rn_limit; [exact R1|].
    rewrite <- firstn_map. pose proof (limit_produces n pull _ _ (pull_rows l1) 0) as X.
    now rewrite Nat.sub_0_r in X. }
  revert R2.
  generalize (match q_limit q with Some n => PLimit n p1 | None => p1 end) as p2.
  generalize (match q_limit q with Some n => firstn n l1 | None => l1 end) as l2. intros l2 p2 R2.
  destruct (q_fetch q) as [f|]; [|exact R2]. eapply rn_limit; [exact R2|].
  rewrite <- firstn_map. pose proof (limit_produces (f_quantity f) pull _ _ (pull_rows l2) 0) as X.
  now rewrite Nat.sub_0_r in X.
Qed.

Lemma sort_runs dbg rows specs p l : runs dbg rows p (map Row l) ->
  runs dbg rows (PSort specs p) (map Row (sort_by (cmp_rows specs) l)).
Proof.
  intros R. eapply rn_sort; [exact R|]. unfold sort_init. rewrite (proj1 (collect_rows l [])).
  pose proof (sort_next_produces (sort_by (cmp_rows specs) l) 0) as X. exact X.
Qed.

Lemma dedup_runs dbg rows p l tys : dbg_faithful dbg -> Forall (plain_row dbg tys) l ->
  runs dbg rows p (map Row l) ->
  runs dbg rows (PDistinct p) (map Row (first_occurrences row_eq_dec l)).
Proof.
  intros D F R. eapply rn_distinct; [exact R|].
  pose proof (distinct_produces dbg l false []) as X. rewrite !app_nil_r in X.
  rewrite (dedup_all dbg row_eq_dec l) in X; [exact X|].
  intros a b Ha Hb. rewrite Forall_forall in F. apply (ser_row_inj dbg tys); auto.
Qed.

Lemma first_in {T} (d : forall a b : T, {a = b} + {a <> b}) l x : In x (first_occurrences d l) -> In x l.
Proof.
  induction l as [|y l IH]; cbn; [auto|]. intros [H|H]; [now left|]. right. apply IH.
  now apply filter_In in H.
Qed.

Lemma shows_length cols items r o : shows cols items r o -> length o = length (written_out cols items).
Proof. unfold shows. intros F. symmetry. revert F. apply Forall2_len. Qed.

(** ** The whole query *)
Theorem select_ok text dbg cols q rows :
  legal cols q -> quiet text cols q -> computable cols q rows ->
  (q_distinct q = true -> dbg_faithful dbg /\ exists tys, forall kept outs,
     keeps cols (q_where q) rows kept -> Forall2 (shows cols (q_items q)) kept outs ->
     Forall (plain_row dbg tys) outs) ->
  exists p ans, build_query_plan text cols q = Some p /\ answer cols q rows ans /\
    runs dbg rows p (map Row ans).
Proof.
  intros L Q C Dh.
  destruct (scanned_ok dbg cols q rows L) as (before & kept & Es & K & Rb).
  destruct (proj_ok text cols q L) as (proj & Ep & Fp).
  destruct (outs_ok text cols q rows C proj kept Fp K) as (outs & S & E).
  destruct C as (C1 & C2 & C3 & C4). pose proof (C4 kept outs) as C4b.
  assert (Len : forall r, In r kept -> length r = length cols).
  { intros r Hr. rewrite Forall_forall in C1. apply C1. now apply (keeps_in _ _ _ _ K). }
  assert (Ok : forall i, one_type kept i).
  { intros i a b x y Ha Hb. apply (C3 i); now apply (keeps_in _ _ _ _ K). }
  assert (Oo : forall i, one_type outs i) by auto.
  set (m := length (written_out cols (q_items q))) in *.
  assert (Leno : forall o, In o outs -> length o = m).
  { intros o Ho. destruct (Forall2_in_r _ _ _ _ S Ho) as (r & _ & Sh). now apply shows_length in Sh. }
  assert (LL : length kept = length outs) by (eapply Forall2_len; exact S).
  destruct (widen_split (length cols) kept outs) as [Ws Wf];
    [now apply Forall_forall|exact LL|].
  assert (Lw : forall w, In w (widen kept outs) -> length w = length cols + m).
  { intros w Hw. apply widen_in in Hw as (r & o & Hr & Ho & ->). rewrite app_length. now rewrite Len, Leno. }
  assert (Rp : runs dbg rows (PProject (map fst proj) before) (map Row outs)).
  { eapply rn_project; [exact Rb|]. now apply project_produces. }
  assert (Core : exists p l, build_select_plan text cols q = Some p /\ runs dbg rows p (map Row l) /\
                             answer cols q rows (slice q l)).
  { unfold build_select_plan. rewrite Es, Ep. cbv zeta.
    destruct (lg_order _ _ L) as [R|[Nd R]].
    - destruct (specs_results text cols q L Q proj Fp R) as (js & Fj & Ej).
      fold m in Fj.
      destruct (q_distinct q) eqn:Dq.
      + destruct (Dh eq_refl) as (Df & tys & Pl). specialize (Pl kept outs K S).
        pose proof (dedup_runs dbg rows _ outs tys Df Pl Rp) as Rd.
        assert (So : is_sorted_version (by_columns (q_order q) js) (first_occurrences row_eq_dec outs)
                       (sort_by (cmp_rows (by_columns (q_order q) js)) (first_occurrences row_eq_dec outs))).
        { apply sort_is_sorted. apply by_columns_sortable with (m := m).
          - intros j Hj. destruct (Forall2_in_r _ _ _ _ Fj Hj) as (k & _ & _ & B). exact B.
          - intros a Ha. apply Leno. now apply first_in in Ha.
          - intros i a b x y Ha Hb. apply first_in in Ha. apply first_in in Hb. now apply Oo. }
        assert (An : answer cols q rows (slice q
                       (sort_by (cmp_rows (by_columns (q_order q) js)) (first_occurrences row_eq_dec outs)))).
        { eapply an_distinct with (kept := kept) (outs := outs) (specs := by_columns (q_order q) js);
            [exact Dq|exact K|exact S| |exact So].
          apply (by_columns_spec (fun k j => key_means cols (q_items q) (k_expr k) (length cols + j))).
          eapply Forall2_weaken; [|exact Fj]. now intros a b [? _]. }
        destruct (q_order q) as [|k keys] eqn:Eo.
        * eexists _, _. split; [reflexivity|]. split; [|exact An].
          unfold by_columns. cbn [combine map]. rewrite sort_by_nil. exact Rd.
        * cbn [map combine] in Ej. rewrite Ej. eexists _, _. split; [reflexivity|]. split; [|exact An].
          apply sort_runs. exact Rd.
      + set (ws := by_columns (q_order q) (map (Nat.add (length cols)) js)).
        assert (So : is_sorted_version ws (widen kept outs) (sort_by (cmp_rows ws) (widen kept outs))).
        { apply sort_is_sorted. apply by_columns_sortable with (m := length cols + m).
          - intros j Hj. apply in_map_iff in Hj as (j2 & <- & Hj).
            destruct (Forall2_in_r _ _ _ _ Fj Hj) as (k & _ & _ & B). lia.
          - exact Lw.
          - now apply (widen_one_type (length cols)). }
        assert (Eq : map (skipn (length cols)) (sort_by (cmp_rows ws) (widen kept outs)) =
                     sort_by (cmp_rows (by_columns (q_order q) js)) outs).
        { rewrite <- Ws at 2. symmetry. apply sort_by_map. intros x y _ _. apply cmp_by_skip. }
        assert (An : answer cols q rows (slice q (sort_by (cmp_rows (by_columns (q_order q) js)) outs))).
        { rewrite <- Eq. eapply an_all with (kept := kept) (outs := outs) (specs := ws);
            [exact Dq|exact K|exact S| |exact So].
          apply (by_columns_shift (fun k i => key_means cols (q_items q) (k_expr k) i)).
          eapply Forall2_weaken; [|exact Fj]. now intros a b [? _]. }
        destruct (q_order q) as [|k keys] eqn:Eo.
        * eexists _, _. split; [reflexivity|]. split; [|exact An].
          unfold by_columns. cbn [combine map]. rewrite sort_by_nil. exact Rp.
        * cbn [map combine] in Ej. rewrite Ej. eexists _, _. split; [reflexivity|]. split; [|exact An].
          apply sort_runs. exact Rp.
    - rewrite Nd. destruct (specs_hidden text cols q L Q proj Fp R) as (js & Fj & En & Ej).
      set (ws := by_columns (q_order q) js) in *.
      assert (B : forall j, In j js -> j < length cols).
      { intros j Hj. destruct (Forall2_in_r _ _ _ _ Fj Hj) as (k & _ & _ & B). exact B. }
      assert (So : is_sorted_version ws (widen kept outs) (sort_by (cmp_rows ws) (widen kept outs))).
      { apply sort_is_sorted. apply by_columns_sortable with (m := length cols + m).
        - intros j Hj. specialize (B j Hj). lia.
        - exact Lw.
        - now apply (widen_one_type (length cols)). }
      assert (Eq : map (firstn (length cols)) (sort_by (cmp_rows ws) (widen kept outs)) =
                   sort_by (cmp_rows ws) kept).
      { rewrite <- Wf at 2. symmetry. apply sort_by_map. intros x y _ _. apply cmp_by_first. exact B. }
      assert (Rs : runs dbg rows (PProject (map fst proj) (PSort ws before))
                     (map Row (map (skipn (length cols)) (sort_by (cmp_rows ws) (widen kept outs))))).
      { eapply rn_project; [apply sort_runs; exact Rb|]. rewrite <- Eq. apply project_produces.
        assert (X : forall w, In w (sort_by (cmp_rows ws) (widen kept outs)) ->
                  eval_all (map fst proj) (firstn (length cols) w) = Some (skipn (length cols) w)).
        { intros w Hw. apply (Permutation_in _ (Permutation_sym (sort_perm _ _))) in Hw.
          revert Hw. unfold widen. clear -E Len. revert Len. induction E as [|r o kept outs H F IH]; intros Len Hw.
          - destruct Hw.
          - cbn [combine map] in Hw. destruct Hw as [<-|Hw].
            + cbn [fst snd]. rewrite <- (Len r (or_introl eq_refl)).
              rewrite firstn_app, Nat.sub_diag, firstn_all, skipn_app, Nat.sub_diag, skipn_all.
              cbn. now rewrite app_nil_r.
            + apply IH; [|exact Hw]. intros x Hx. apply Len. now right. }
        revert X. generalize (sort_by (cmp_rows ws) (widen kept outs)) as l. clear.
        induction l as [|w l IH]; intros X; cbn; constructor.
        - apply X. now left.
        - apply IH. intros x Hx. apply X. now right. }
      destruct (q_order q) as [|k keys] eqn:Eo; [destruct R as [R _]; congruence|].
      rewrite En, Ej. eexists _, _. split; [reflexivity|]. split; [exact Rs|].
      eapply an_all with (kept := kept) (outs := outs) (specs := ws);
        [exact Nd|exact K|exact S| |exact So].
      rewrite Eo. unfold ws. apply (by_columns_spec (fun k j => key_means cols (q_items q) (k_expr k) j)).
      eapply Forall2_weaken; [|exact Fj]. now intros a b [? _]. }
  destruct Core as (p & l & Ep1 & Rl & An).
  destruct (slice_runs text dbg cols q rows p l Ep1 Rl) as (p2 & Ep2 & R2).
  exists p2, (slice q l). auto.
Qed.
