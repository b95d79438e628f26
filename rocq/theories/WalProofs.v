(** * The log manager: proofs *)
From Coq Require Import NArith Lia.
From stdpp Require Import list.
From Verif Require Import WalSpec WalModel.
Local Open Scope N_scope.

Definition plain (e : wev) : Prop := match e with ERestart _ => False | _ => True end.
Lemma since_snoc tr e : since (tr ++ [e]) = match e with ERestart _ => [] | _ => since tr ++ [e] end.
Proof. unfold since. by rewrite fold_left_app. Qed.
Lemma recovered_snoc tr e : recovered (tr ++ [e]) = match e with ERestart b => b | _ => recovered tr end.
Proof. unfold recovered. by rewrite fold_left_app. Qed.
Lemma appended_snoc tr e : appended (tr ++ [e]) = match e with ERestart _ => [] | _ => appended tr ++ app_of e end.
Proof.
  unfold appended. rewrite since_snoc. destruct e; try done; rewrite flat_map_app; cbn; by rewrite ?app_nil_r.
Qed.
Lemma calm_snoc tr e : plain e -> calm (tr ++ [e]) <-> calm tr /\ e <> EFail /\ e <> EShut.
Proof.
  intros Hp. unfold calm. rewrite since_snoc.
  destruct e; try done; rewrite !elem_of_app, !elem_of_list_singleton;
    (split; [intros [H1 H2]; repeat split; try tauto; intros ?; subst; try discriminate; tauto
            |intros [[H1 H2] [H3 H4]]; split; intros [?|?]; try tauto; congruence]).
Qed.
Lemma since_le tr : (length (since tr) <= length tr)%nat.
Proof.
  induction tr as [|e tr IH] using rev_ind; [done|]. rewrite since_snoc, app_length. cbn.
  destruct e; cbn; rewrite ?app_length; cbn; lia.
Qed.
Lemma appended_le tr : (length (appended tr) <= length tr)%nat.
Proof.
  unfold appended. pose proof (since_le tr) as H. revert H. generalize (since tr) as l.
  intros l H. transitivity (length l); [|lia]. clear.
  induction l as [|e l IH]; [done|]. cbn. rewrite app_length. destruct e; cbn; lia.
Qed.

Definition held (f : flusher) : list lrec :=
  match f with FDrain b _ => b | FWrite t _ _ => t | FFinal b => b | _ => [] end.
Definition unsent (a : option (lrec * bool)) : list lrec := match a with Some (r, false) => [r] | _ => [] end.
Definition numbered (A : list lrec) : Prop := forall i r, A !! i = Some r -> r_lsn r = N.of_nat i.

Lemma recs_app a b : recs (a ++ b) = recs a ++ recs b.
Proof. apply flat_map_app. Qed.
Lemma recs_map l : recs (map IRec l) = l.
Proof. unfold recs. induction l; [done|]. cbn. by rewrite IHl. Qed.

(** The flush task while all is well: [w] has been written. *)
Definition fl_ok (f : flusher) (w : list lrec) : Prop :=
  match f with
  | FTop | FRecv => True
  | FDrain b mx => b <> [] /\ mx + 1 = N.of_nat (length w + length b)
  | FWrite t mx fin => fin = false /\ mx + 1 = N.of_nat (length w + length t)
  | FSync mx fin => fin = false /\ mx + 1 = N.of_nat (length w)
  | FFinal _ | FDead => False
  end.

Record WInv (s : wal) (tr : list wev) (pre : list item) (W : list item) : Prop := mkWInv {
  wi_file : w_dev s ++ w_os s = pre ++ W;
  wi_pre : pre `prefix_of` w_dev s;
  wi_num : numbered (appended tr);
  wi_next : w_next s = N.of_nat (length (appended tr));
  wi_sub : recs W ++ held (w_fl s) ++ w_chan s ++ unsent (w_app s) `sublist_of` appended tr;
  wi_app : forall r b, w_app s = Some (r, b) -> exists l, appended tr = l ++ [r];
  wi_calm : calm tr ->
    W = map IRec (recs W) /\ appended tr = recs W ++ held (w_fl s) ++ w_chan s ++ unsent (w_app s) /\
    w_stop s = false /\ fl_ok (w_fl s) (recs W) /\
    (forall lsn, must_wait s lsn = false ->
       (recovered tr = true /\ lsn = 0) \/
       (N.to_nat lsn < length (appended tr))%nat /\ pre ++ map IRec (take (S (N.to_nat lsn)) (appended tr)) `prefix_of` w_dev s)
}.

Lemma winv_fresh : WInv fresh [] [] [].
Proof.
  constructor; cbn; try done.
Qed.

Lemma numbered_snoc A r : numbered A -> r_lsn r = N.of_nat (length A) -> numbered (A ++ [r]).
Proof.
  intros HA Hr i x Hx. apply lookup_app_Some in Hx as [Hx|[Hle Hx]]; [by apply HA|].
  apply list_lookup_singleton_Some in Hx as [Hi ->]. rewrite Hr. f_equal. lia.
Qed.

Lemma sub_shift {A} (a b c : list A) : a `sublist_of` b -> a ++ c `sublist_of` b ++ c.
Proof. intros. by apply sublist_app. Qed.
Lemma map_take_prefix (A w : list lrec) n : (exists z, A = w ++ z) -> (n <= length w)%nat -> map IRec (take n A) `prefix_of` map IRec w.
Proof.
  intros [z ->] Hn. rewrite take_app_le by done. exists (map IRec (drop n w)).
  by rewrite <- map_app, take_drop.
Qed.
Lemma prefix_map_take_app (A B : list lrec) n d pre :
  (n <= length A)%nat -> pre ++ map IRec (take n A) `prefix_of` d -> pre ++ map IRec (take n (A ++ B)) `prefix_of` d.
Proof. intros Hn. by rewrite take_app_le. Qed.


Lemma prefix_grow {A} (p d e : list A) : p `prefix_of` d -> p `prefix_of` d ++ e.
Proof. intros. by apply prefix_app_r. Qed.

Lemma step_append s tr pre W c b s' e :
  WInv s tr pre W -> N.of_nat (length (tr ++ e)) < no_lsn -> append s c b = Some (s', e) -> WInv s' (tr ++ e) pre W.
Proof.
  intros H Hb Hs. unfold append in Hs. destruct (w_app s) eqn:Ha; [done|]. destruct (w_join s) eqn:Hj; [done|].
  injection Hs as <- <-. destruct H as [Hf Hp Hn Hx Hsub Happ Hc].
  pose proof (appended_le tr) as Hle. rewrite app_length in Hb. unfold no_lsn in Hb.
  constructor; cbn; try done.
  - rewrite appended_snoc. cbn. by apply numbered_snoc.
  - rewrite appended_snoc. cbn. rewrite app_length, Hx. cbn [length] in *. rewrite N.mod_small; lia.
  - rewrite appended_snoc. cbn. rewrite Ha in Hsub. cbn in Hsub. rewrite app_nil_r in Hsub.
    rewrite !app_assoc. apply sub_shift. by rewrite <- app_assoc.
  - intros r b0 [= <- <-]. rewrite appended_snoc. eauto.
  - intros Hcalm. apply calm_snoc in Hcalm as [Hcalm _]; [|done]. specialize (Hc Hcalm) as (H1 & H2 & H3 & H4 & H5).
    rewrite appended_snoc, recovered_snoc. cbn. split; [done|]. split.
    { rewrite H2, Ha. cbn. by rewrite app_nil_r, <- !app_assoc. }
    split; [done|]. split; [done|]. intros lsn Hl. destruct (H5 lsn Hl) as [?|[? ?]]; [by left|right].
    rewrite app_length. split; [lia|]. by apply prefix_map_take_app; [lia|].
Qed.

Lemma step_send s tr pre W s' : WInv s tr pre W -> send s = Some s' -> WInv s' tr pre W.
Proof.
  intros [Hf Hp Hn Hx Hsub Happ Hc] Hs. unfold send in Hs. destruct (w_app s) as [[r []]|] eqn:Ha; try done.
  assert (w_fl s = FDead \/ w_fl s <> FDead) as [Hd|Hd] by (destruct (w_fl s); auto).
  - rewrite Hd in Hs. assert (s' = set_app s (Some (r, true))) as -> by congruence.
    constructor; cbn; try done.
    + rewrite app_nil_r. etrans; [|exact Hsub]. cbn. rewrite !app_assoc. by apply sublist_inserts_r.
    + intros r0 b0 [= <- <-]. by apply (Happ r false).
    + intros Hcalm. destruct (Hc Hcalm) as (_ & _ & _ & H4 & _). by rewrite Hd in H4.
  - assert (s' = set_app (set_chan s (w_chan s ++ [r])) (Some (r, true))) as ->.
    { destruct (w_fl s); try done; destruct (length (w_chan s) <? capacity)%nat; congruence. }
    constructor; cbn; try done.
    + by rewrite app_nil_r.
    + intros r0 b0 [= <- <-]. by apply (Happ r false).
    + intros Hcalm. destruct (Hc Hcalm) as (H1 & H2 & H3 & H4 & H5). split; [done|]. split; [by rewrite app_nil_r|].
      split; [done|]. by split.
Qed.

Lemma step_ret s tr pre W s' e : WInv s tr pre W -> ret s = Some (s', e) -> WInv s' (tr ++ e) pre W.
Proof.
  intros [Hf Hp Hn Hx Hsub Happ Hc] Hs. unfold ret in Hs. destruct (w_app s) as [[r []]|] eqn:Ha; try done.
  assert (s' = set_app s None /\ e = [ERet r]) as [-> ->] by (destruct (_ && _ && _); by inversion Hs).
  constructor; cbn; try done; rewrite ?appended_snoc, ?recovered_snoc; cbn; rewrite ?app_nil_r; try done.
  - by rewrite !app_nil_r in Hsub.
  - intros Hcalm. apply calm_snoc in Hcalm as [Hcalm _]; [|done].
    destruct (Hc Hcalm) as (H1 & H2 & H3 & H4 & H5). cbn in H2. rewrite app_nil_r in H2. done.
Qed.

Lemma step_shut s tr pre W : WInv s tr pre W -> WInv (set_join (set_stop s) true) (tr ++ [EShut]) pre W.
Proof.
  intros [Hf Hp Hn Hx Hsub Happ Hc].
  constructor; cbn; rewrite ?appended_snoc; cbn; rewrite ?app_nil_r; try done.
  intros Hcalm. apply calm_snoc in Hcalm as (_ & _ & Hcalm); done.
Qed.
(** Steps that change nothing but the flush task's place, before any records are taken. *)
Lemma step_same s tr pre W s' :
  WInv s tr pre W -> w_dev s' = w_dev s -> w_os s' = w_os s -> w_next s' = w_next s -> w_app s' = w_app s ->
  w_pers s' = w_pers s -> w_stop s' = w_stop s ->
  held (w_fl s') ++ w_chan s' = held (w_fl s) ++ w_chan s ->
  (forall w, w_stop s = false -> (forall r, r ∈ held (w_fl s') ++ w_chan s' -> True) ->
     N.of_nat (length (appended tr)) < no_lsn -> numbered (appended tr) ->
     appended tr = w ++ held (w_fl s) ++ w_chan s ++ unsent (w_app s) -> fl_ok (w_fl s) w -> fl_ok (w_fl s') w) ->
  N.of_nat (length (appended tr)) < no_lsn ->
  WInv s' tr pre W.
Proof.
  intros [Hf Hp Hn Hx Hsub Happ Hc] E1 E2 E3 E4 E5 E6 E7 Hfl Hb.
  constructor; rewrite ?E1, ?E2, ?E3, ?E4; try done.
  - by rewrite (app_assoc (held _)), E7, <- (app_assoc (held _)).
  - intros Hcalm. destruct (Hc Hcalm) as (H1 & H2 & H3 & H4 & H5). rewrite (app_assoc (held (w_fl s'))), E7, <- (app_assoc (held _)), E6.
    unfold must_wait. rewrite E5. repeat (split; [done|]). split; [|done]. by apply Hfl.
Qed.

Lemma step_flush s tr pre W f s' e :
  WInv s tr pre W -> N.of_nat (length (tr ++ e)) < no_lsn -> flush_step s f = Some (s', e) ->
  exists W', WInv s' (tr ++ e) pre W'.
Proof.
  intros H Hb Hs.
  assert (N.of_nat (length (appended tr)) < no_lsn) as Hb2.
  { pose proof (appended_le tr). rewrite app_length in Hb. lia. }
  unfold flush_step in Hs. destruct (w_fl s) as [| |b mx|[|r t] mx fin|mx fin|b|] eqn:Hfl; try done.
  - assert (s' = set_fl s (if w_stop s then FFinal [] else FRecv) /\ e = []) as [-> ->] by (by inversion Hs).
    rewrite app_nil_r. exists W. eapply step_same; cbn; try done.
    + by rewrite Hfl; destruct (w_stop s).
    + intros w Hst. by rewrite Hst.
  - destruct (w_chan s) as [|r c] eqn:Hch; [done|].
    assert (s' = set_fl (set_chan s c) (FDrain [r] (r_lsn r)) /\ e = []) as [-> ->] by (by inversion Hs).
    rewrite app_nil_r. exists W. eapply step_same; cbn; try done.
    + by rewrite Hfl, Hch.
    + intros w _ _ _ Hnum Heq _. rewrite Hfl, Hch in Heq. cbn in Heq. split; [done|].
      rewrite (Hnum (length w) r); [lia|]. rewrite Heq. by rewrite list_lookup_middle.
  - destruct (w_chan s) as [|r c] eqn:Hch.
    + assert (s' = set_fl s (FWrite b mx false) /\ e = []) as [-> ->] by (by inversion Hs).
      rewrite app_nil_r. exists W. eapply step_same; cbn; try done.
      * by rewrite Hfl.
      * intros w _ _ _ Hnum Heq. rewrite Hfl. cbn. tauto.
    + set (mx' := if (mx =? no_lsn) || (mx <? r_lsn r) then r_lsn r else mx) in Hs.
      assert (s' = set_fl (set_chan s c) (if r_commit r then FWrite (b ++ [r]) mx' false else FDrain (b ++ [r]) mx') /\ e = [])
        as [-> ->] by (by inversion Hs).
      rewrite app_nil_r. exists W. eapply step_same; cbn; try done.
      * rewrite Hfl, Hch. cbn. destruct (r_commit r); cbn; by rewrite <- app_assoc.
      * intros w _ _ Hlt Hnum Heq. rewrite Hfl, Hch in Heq. rewrite Hfl. cbn [held fl_ok] in Heq |- *. intros [Hne Hmx].
        assert (r_lsn r = N.of_nat (length w + length b)) as Hr.
        { apply Hnum. rewrite Heq, app_assoc, <- app_length. cbn [app]. by rewrite list_lookup_middle. }
        assert (mx' = r_lsn r) as ->.
        { unfold mx'. destruct (mx =? no_lsn) eqn:E; cbn [orb]; [done|]. destruct (N.ltb_spec mx (r_lsn r)); [done|]. lia. }
        destruct (r_commit r); cbn; rewrite app_length; cbn; (split; [by destruct b|lia]).
  - assert (s' = set_fl s (FSync mx fin) /\ e = []) as [-> ->] by (by inversion Hs).
    rewrite app_nil_r. exists W. eapply step_same; cbn; try done.
    + by rewrite Hfl.
    + intros w _ _ _ Hnum Heq. rewrite Hfl. cbn. rewrite Nat.add_0_r. tauto.
  - destruct H as [Hf Hp Hn Hx Hsub Happ Hc]. destruct f as [torn|].
    + set (W' := W ++ (if torn then [ITorn] else [])). exists W'.
      assert (s' = failed (write_log s r (Some torn)) fin /\ e = [EFail]) as [-> ->] by (by inversion Hs).
      constructor; cbn; rewrite ?appended_snoc; cbn; rewrite ?app_nil_r; try done.
      * unfold W'. rewrite (app_assoc pre), <- Hf, <- app_assoc. by destruct torn.
      * assert (recs W' = recs W) as ->. { unfold W'. rewrite recs_app. destruct torn; cbn; by rewrite app_nil_r. }
        replace (held (after fin)) with (@nil lrec) by (by destruct fin). cbn.
        etrans; [|exact Hsub]. rewrite Hfl. cbn. apply sublist_app; [done|].
        apply sublist_cons, sublist_inserts_l. done.
      * intros Hcalm. by apply calm_snoc in Hcalm as (_ & Hcalm & _).
    + exists (W ++ [IRec r]).
      assert (s' = set_fl (write_log s r None) (FWrite t mx fin) /\ e = []) as [-> ->] by (by inversion Hs).
      assert (recs (W ++ [IRec r]) = recs W ++ [r]) as Hrw by (by rewrite recs_app).
      rewrite app_nil_r. constructor; cbn; rewrite ?Hrw; try done.
      * by rewrite app_assoc, Hf, app_assoc.
      * rewrite Hfl in Hsub. cbn in Hsub. by rewrite <- app_assoc.
      * intros Hcalm. destruct (Hc Hcalm) as (H1 & H2 & H3 & H4 & H5). rewrite Hfl in H2, H4. cbn [held fl_ok app] in H2, H4.
        rewrite map_app, <- H1. split; [done|]. split; [by rewrite <- app_assoc|]. split; [done|].
        split; [|done]. destruct H4 as [-> H4]. split; [done|]. rewrite app_length. cbn [length] in *. lia.
  - destruct H as [Hf Hp Hn Hx Hsub Happ Hc]. destruct f as [torn|].
    + exists W.
      assert (s' = failed s fin /\ e = [EFail]) as [-> ->] by (by inversion Hs).
      constructor; cbn; rewrite ?appended_snoc; cbn; rewrite ?app_nil_r; try done.
      * rewrite Hfl in Hsub. replace (held (after fin)) with (@nil lrec) by (by destruct fin). done.
      * intros Hcalm. by apply calm_snoc in Hcalm as (_ & Hcalm & _).
    + exists W.
      assert (s' = flushed (sync_log s) mx fin /\ e = []) as [-> ->] by (by inversion Hs).
      assert (w_dev (flushed (sync_log s) mx fin) = pre ++ W /\ w_os (flushed (sync_log s) mx fin) = [] /\
              w_next (flushed (sync_log s) mx fin) = w_next s /\ w_app (flushed (sync_log s) mx fin) = w_app s /\
              w_chan (flushed (sync_log s) mx fin) = w_chan s /\ w_fl (flushed (sync_log s) mx fin) = after fin /\
              w_stop (flushed (sync_log s) mx fin) = w_stop s /\
              w_pers (flushed (sync_log s) mx fin) = if mx =? no_lsn then w_pers s else mx) as (E1 & E2 & E3 & E4 & E5 & E6 & E7 & E8).
      { unfold flushed. destruct (mx =? no_lsn); cbn; rewrite Hf; done. }
      replace (held (w_fl s)) with (@nil lrec) in * by (by rewrite Hfl).
      rewrite app_nil_r. constructor; rewrite ?E1, ?E2, ?E3, ?E4, ?E5, ?E6, ?E7; try done.
      * by rewrite app_nil_r.
      * by apply prefix_app_r.
      * by destruct fin.
      * intros Hcalm. destruct (Hc Hcalm) as (H1 & H2 & H3 & H4 & H5). rewrite Hfl in H4. cbn in H4. destruct H4 as [-> Hmx].
        cbn. split; [done|]. split; [done|]. split; [done|]. split; [done|].
        intros lsn Hl. unfold must_wait in Hl. rewrite E8 in Hl.
        assert (length (recs W) <= length (appended tr))%nat as Hlen. { rewrite H2, app_length. lia. }
        assert ((mx =? no_lsn) = false) as Emx. { apply N.eqb_neq. lia. }
        rewrite Emx in Hl. apply orb_false_iff in Hl as [_ Hl]. apply N.ltb_ge in Hl.
        right. split; [lia|]. apply prefix_app. rewrite H1. apply map_take_prefix.
        { exists (w_chan s ++ unsent (w_app s)). exact H2. }
        lia.
  - destruct (w_chan s) as [|r c] eqn:Hch.
    + exists W. assert (s' = set_fl s (match b with [] => FDead | _ => FWrite b (last_of b) true end) /\ e = []) as [-> ->] by (by inversion Hs).
      rewrite app_nil_r. eapply step_same; cbn; try done.
      * rewrite Hfl, Hch. by destruct b.
      * intros w _ _ _ Hnum Heq. by rewrite Hfl.
    + exists W. assert (s' = set_fl (set_chan s c) (FFinal (b ++ [r])) /\ e = []) as [-> ->] by (by inversion Hs).
      rewrite app_nil_r. eapply step_same; cbn; try done.
      * rewrite Hfl, Hch. cbn. by rewrite <- app_assoc.
      * intros w _ _ _ Hnum Heq. by rewrite Hfl.
Qed.

Lemma winv_boot tr f b : WInv (boot f b) (tr ++ [ERestart b]) f [].
Proof.
  constructor; cbn; rewrite ?appended_snoc; cbn; try done.
  intros _. rewrite recovered_snoc. repeat split; try done.
  intros lsn Hl. left. destruct b; cbn in Hl; [|done]. split; [done|].
  unfold must_wait in Hl. cbn in Hl. apply N.ltb_ge in Hl. lia.
Qed.

Lemma winv_step s tr pre W l s' e :
  WInv s tr pre W -> N.of_nat (length (tr ++ e)) < no_lsn -> wstep s l = Some (s', e) ->
  exists pre' W', WInv s' (tr ++ e) pre' W'.
Proof.
  intros H Hb Hs.
  assert (N.of_nat (length (appended tr)) < no_lsn) as Hb2.
  { pose proof (appended_le tr). rewrite app_length in Hb. lia. }
  destruct l; cbn in Hs.
  - exists pre, W. by eapply step_append.
  - destruct (send s) eqn:E; [|done]. inversion Hs; subst. rewrite app_nil_r. exists pre, W. by eapply step_send.
  - exists pre, W. by eapply step_ret.
  - destruct (w_app s); [done|]. destruct (w_join s); [done|]. inversion Hs; subst. exists pre, W. by apply step_shut.
  - destruct (w_fl s) eqn:E; try done. destruct (w_join s); [|done]. inversion Hs; subst. rewrite app_nil_r. exists pre, W.
    eapply step_same; cbn; done.
  - destruct (w_fl s) eqn:E; try done. inversion Hs; subst. rewrite app_nil_r. exists pre, W.
    eapply step_same; cbn; try done. by rewrite E.
  - destruct (step_flush s tr pre W fault s' e H Hb Hs) as [W' HW]. eauto.
  - inversion Hs; subst. rewrite app_nil_r. exists pre, W. destruct H as [Hf Hp Hn Hx Hsub Happ Hc].
    constructor; cbn; try done.
    + by rewrite <- app_assoc, take_drop.
    + by apply prefix_app_r.
    + intros Hcalm. destruct (Hc Hcalm) as (H1 & H2 & H3 & H4 & H5). repeat (split; [done|]).
      intros lsn Hl. destruct (H5 lsn Hl) as [?|[? ?]]; [by left|right]. split; [done|]. by apply prefix_app_r.
  - inversion Hs; subst. eexists _, []. apply winv_boot.
Qed.

Lemma winv_run ls : forall s tr pre W s' e,
  WInv s tr pre W -> N.of_nat (length (tr ++ e)) < no_lsn -> wrun s ls = Some (s', e) ->
  exists pre' W', WInv s' (tr ++ e) pre' W'.
Proof.
  induction ls as [|l ls IH]; intros s tr pre W s' e H Hb Hr; cbn in Hr.
  - inversion Hr; subst. rewrite app_nil_r. eauto.
  - destruct (wstep s l) as [[s1 e1]|] eqn:Es; [|done]. destruct (wrun s1 ls) as [[s2 e2]|] eqn:Er; [|done].
    inversion Hr; subst. rewrite app_assoc in *. 
    destruct (winv_step s tr pre W l s1 e1) as (p1 & W1 & H1); [done| |done|].
    { rewrite app_length in Hb. lia. }
    by eapply IH.
Qed.

Lemma wrun_app a b s : wrun s (a ++ b) =
  match wrun s a with Some (s1, e1) => match wrun s1 b with Some (s2, e2) => Some (s2, e1 ++ e2) | None => None end | None => None end.
Proof.
  revert s. induction a as [|l a IH]; intros s; cbn; [by destruct (wrun s b) as [[]|]|].
  destruct (wstep s l) as [[s1 e1]|]; [|done]. rewrite IH. destruct (wrun s1 a) as [[s2 e2]|]; [|done].
  destruct (wrun s2 b) as [[s3 e3]|]; [|done]. by rewrite app_assoc.
Qed.

Lemma wstep_one s l s' e : wstep s l = Some (s', e) -> e = [] \/ exists x, e = [x].
Proof.
  destruct l; cbn; unfold append, ret, flush_step; intros H;
    repeat match type of H with context [match ?x with _ => _ end] => destruct x eqn:? end; inversion H; subst; eauto.
Qed.

(** A run that shows an event can be cut at the step that shows it. *)
Lemma wrun_split ls : forall s s' t1 x t2, wrun s ls = Some (s', t1 ++ x :: t2) ->
  exists l1 l l2 sa sb, wrun s l1 = Some (sa, t1) /\ wstep sa l = Some (sb, [x]) /\ wrun sb l2 = Some (s', t2).
Proof.
  induction ls as [|l ls IH]; intros s s' t1 x t2 Hr; cbn in Hr.
  - inversion Hr. by destruct t1.
  - destruct (wstep s l) as [[s1 e1]|] eqn:Es; [|done]. destruct (wrun s1 ls) as [[s2 e2]|] eqn:Er; [|done].
    assert (e1 ++ e2 = t1 ++ x :: t2 /\ s2 = s') as [He ->] by (by inversion Hr).
    destruct (wstep_one _ _ _ _ Es) as [->|[y ->]]; cbn in He.
    + subst e2. destruct (IH _ _ _ _ _ Er) as (l1 & l0 & l2 & sa & sb & A & B & C).
      exists (l :: l1), l0, l2, sa, sb. cbn. by rewrite Es, A.
    + destruct t1 as [|y' t1]; cbn in He.
      * injection He as -> ->. exists [], l, ls, s, s1. by cbn.
      * injection He as -> ->. destruct (IH _ _ _ _ _ Er) as (l1 & l0 & l2 & sa & sb & A & B & C).
        exists (l :: l1), l0, l2, sa, sb. cbn. by rewrite Es, A.
Qed.

(** What is on the device stays. *)
Lemma wstep_dev s l s' e : wstep s l = Some (s', e) -> w_dev s `prefix_of` w_dev s'.
Proof.
  assert (forall x, send s = Some x -> w_dev x = w_dev s) as Hsend.
  { unfold send. intros x H.
    repeat match type of H with context [match ?x with _ => _ end] => destruct x eqn:? end; by inversion H. }
  destruct l; cbn; unfold append, ret, flush_step, flushed, failed; intros H;
    [|destruct (send s) eqn:E; [|done]; inversion H; subst; by rewrite (Hsend _ eq_refl)|..];
    repeat match type of H with context [match ?x with _ => _ end] => destruct x eqn:? end; inversion H; subst; cbn;
    try done; by apply prefix_app_r.
Qed.
Lemma wrun_dev ls : forall s s' e, wrun s ls = Some (s', e) -> w_dev s `prefix_of` w_dev s'.
Proof.
  induction ls as [|l ls IH]; intros s s' e Hr; cbn in Hr; [by inversion Hr|].
  destruct (wstep s l) as [[s1 e1]|] eqn:Es; [|done]. destruct (wrun s1 ls) as [[s2 e2]|] eqn:Er; [|done].
  inversion Hr; subst. etrans; [by eapply wstep_dev|]. by eapply IH.
Qed.
