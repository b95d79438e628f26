From Coq Require Import NArith Lia.
From stdpp Require Import gmap list.
From Verif Require Import WbufSpec WbufModel WbufProofs DiskSpec DiskModel.

(** ** The write path does not depend on the cache *)
Definition core (s : disk) := (s_buf s, s_file s, s_len s, s_fly s).
Lemma core_buf s t : core s = core t -> s_buf s = s_buf t.
Proof. unfold core. congruence. Qed.
Lemma core_file s t : core s = core t -> s_file s = s_file t.
Proof. unfold core. congruence. Qed.
Lemma core_record s p b : core (record_access s p b) = core s.
Proof. by destruct b. Qed.
Lemma core_store s p d c : core (store_page s p d c) = core s.
Proof. unfold store_page. destruct (negb (c_admit c)); [done|]. destruct (c_dedup c && _); [done|]. by rewrite core_record. Qed.
Lemma core_look s p k s1 r : lookup_page s p k = (s1, r) -> core s1 = core s.
Proof.
  unfold lookup_page. set (s0 := record_access s p (k_rec k)). assert (H0 : core s0 = core s) by apply core_record. clearbody s0.
  intros H. destruct (if k_hot k then _ else _); [assert (s1 = s0) by congruence; by subst|].
  destruct (if k_warm k then _ else _); [pose proof (f_equal fst H) as E; cbn [fst] in E; subst s1; exact H0|].
  destruct (if k_cold k then _ else _); [pose proof (f_equal fst H) as E; cbn [fst] in E; subst s1; exact H0|assert (s1 = s0) by congruence; by subst].
Qed.
Lemma core_read g s p k s1 r : read_page g s p k = (s1, r) -> core s1 = core s.
Proof.
  unfold read_page. destruct (if d_cache g then lookup_page s p k else (s, None)) as [s2 r2] eqn:E.
  assert (H2 : core s2 = core s) by (destruct (d_cache g); [by eapply core_look|congruence]).
  destruct r2; [intros H; assert (s1 = s2) by congruence; by subst|]. destruct (d_steal g); [intros H; assert (s1 = s2) by congruence; by subst|].
  destruct (k_err k); [intros H; assert (s1 = s2) by congruence; by subst|]. destruct (file_read g s2 p) as [y|]; [|intros H; assert (s1 = s2) by congruence; by subst].
  intros H. destruct (d_cache g); [|assert (s1 = s2) by congruence; by subst]. assert (s1 = store_page s2 p y (k_store k)) by congruence. subst. by rewrite core_store.
Qed.
Lemma fold_file l s : NoDup l.*1 -> s_file (fold_left file_write l s) = list_to_map l ∪ s_file s /\ s_buf (fold_left file_write l s) = s_buf s.
Proof.
  revert s. induction l as [|[p d] l IH]; intros s Hnd; [cbn; split; [by rewrite (left_id_L ∅ (∪))|done]|]. cbn in Hnd. apply NoDup_cons in Hnd as [Hp Hnd]. cbn [fold_left list_to_map].
  destruct (IH (file_write s (p, d)) Hnd) as [H1 H2]. rewrite H1, H2. cbn. split; [|done].
  rewrite <- insert_union_l. apply map_eq. intros q. destruct (decide (q = p)) as [->|].
  - rewrite lookup_insert, lookup_union_r by (by apply not_elem_of_list_to_map_1). apply lookup_insert.
  - rewrite lookup_insert_ne by done. rewrite !lookup_union, lookup_insert_ne by done. done.
Qed.
Lemma fold_file_all m s : s_file (fold_left file_write (map_to_list m) s) = m ∪ s_file s /\ s_buf (fold_left file_write (map_to_list m) s) = s_buf s.
Proof. destruct (fold_file (map_to_list m) s (NoDup_fst_map_to_list m)) as [H1 H2]. by rewrite list_to_map_to_list in H1. Qed.

(** ** The buffer and the file together hold the latest writes *)
Record DInv (g : dcfg) (s : disk) (m : gmap N bytes) : Prop := {
  di_max : w_max (s_buf s) = d_max g;
  di_dirty : w_dirty (s_buf s) = size (w_buf (s_buf s));
  di_size : w_size (s_buf s) = d_page g * size (w_buf (s_buf s));
  di_len : map_Forall (fun _ d => length d = d_page g) (w_buf (s_buf s));
  di_few : size (w_buf (s_buf s)) < max 1 (d_threshold g);
  di_all : forall p d, m !! p = Some d -> w_buf (s_buf s) !! p = Some d \/ w_buf (s_buf s) !! p = None /\ s_file s !! p = Some d }.
Lemma dinv_core g s t m : core s = core t -> DInv g s m -> DInv g t m.
Proof. intros H [? ? ? ? ? ?]. pose proof (core_buf _ _ H) as Hb. pose proof (core_file _ _ H) as Hf. rewrite Hb in *. rewrite Hf in *. by split. Qed.
Lemma dinv_new g : DInv g (disk_new g) ∅.
Proof.
  split; cbn; rewrite ?map_size_empty; try lia; try done.
Qed.
(** What a drain leaves and hands over. *)
Lemma drain_all g s f s1 l : drain g s f = (s1, Some l) -> l = map_to_list (w_buf (s_buf s)) /\ s1 = set_buf s (wbuf_new (w_max (s_buf s))).
Proof.
  unfold drain, wbuf_drain. destruct (map_to_list (w_buf (s_buf s))) as [|x t]; [intros H; split; [congruence|]|].
  - unfold wbuf_new. congruence.
  - destruct (d_dur g && f_pre f); [congruence|]. intros H. split; [congruence|]. unfold wbuf_new. congruence.
Qed.
Lemma dinv_empty g s m : w_max (s_buf s) = d_max g -> (forall p d, m !! p = Some d -> s_file s !! p = Some d) -> s_buf s = wbuf_new (d_max g) -> DInv g s m.
Proof.
  intros Hm H Hb. split; rewrite Hb; cbn; rewrite ?map_size_empty; try lia; try done.
  intros p d Hp. right. split; [apply lookup_empty|auto].
Qed.
Lemma buffered_written (g : dcfg) s (m b : gmap N bytes) : (forall p d, m !! p = Some d -> b !! p = Some d \/ b !! p = None /\ s_file s !! p = Some d) ->
  forall p d, m !! p = Some d -> (b ∪ s_file s) !! p = Some d.
Proof. intros H p d Hp. rewrite lookup_union. destruct (H _ _ Hp) as [->|[-> ->]]; [by destruct (s_file s !! p)|done]. Qed.
Lemma write_pages_ok g s l f s1 : write_pages g s l f = (s1, true) -> s1 = fold_left file_write l s.
Proof. unfold write_pages. destruct (f_wr f); congruence. Qed.
Lemma flush_pages_inv g s m f s1 : DInv g s m -> flush_pages g s f = (s1, true) ->
  DInv g s1 m /\ (forall p d, m !! p = Some d -> s_file s1 !! p = Some d) /\ s_buf s1 = wbuf_new (d_max g).
Proof.
  intros HI H. unfold flush_pages in H. destruct (drain g s f) as [s2 r] eqn:Ed. destruct r as [l|]; [|congruence].
  destruct (drain_all _ _ _ _ _ Ed) as [-> ->]. rewrite (di_max _ _ _ HI) in *.
  assert (Hfin : s_file s1 = w_buf (s_buf s) ∪ s_file s /\ s_buf s1 = wbuf_new (d_max g)).
  { destruct (map_to_list (w_buf (s_buf s))) as [|x t] eqn:El.
    - apply map_to_list_empty_iff in El. assert (s1 = set_buf s (wbuf_new (d_max g))) by congruence. subst s1. rewrite El. cbn. by rewrite (left_id_L ∅ (∪)).
    - apply write_pages_ok in H. subst s1. rewrite <- El. destruct (fold_file_all (w_buf (s_buf s)) (set_buf s (wbuf_new (d_max g)))) as [H1 H2]. rewrite H1, H2. done. }
  destruct Hfin as [Hf Hb]. assert (Hall : forall p d, m !! p = Some d -> s_file s1 !! p = Some d).
  { rewrite Hf. apply (buffered_written g s m _ (di_all _ _ _ HI)). }
  split; [|done]. apply dinv_empty; [by rewrite Hb|done|done].
Qed.
Lemma flush_inv g s m f s1 : DInv g s m -> flush g s f = (s1, true) ->
  DInv g s1 m /\ (forall p d, m !! p = Some d -> s_file s1 !! p = Some d) /\ s_buf s1 = wbuf_new (d_max g).
Proof.
  intros HI H. unfold flush in H. destruct (flush_pages g s f) as [s2 ok] eqn:E. destruct ok; [|congruence]. assert (s2 = s1) by congruence. subst. by eapply flush_pages_inv.
Qed.
Lemma put_inv g s m p d : d_page g * max 1 (d_threshold g) <= d_max g -> DInv g s m -> length d = d_page g -> forall b ok, wbuf_write (s_buf s) p d = (b, ok) ->
  ok = true /\ w_max b = d_max g /\ w_dirty b = size (w_buf b) /\ w_size b = d_page g * size (w_buf b) /\ map_Forall (fun _ d => length d = d_page g) (w_buf b) /\
  w_buf b = <[p := d]> (w_buf (s_buf s)).
Proof.
  intros Hg [H1 H2 H3 H4 H5 H6] Hd b ok H. unfold wbuf_write in H.
  assert (Hno : (w_max (s_buf s) <? w_size (s_buf s) + (length d - match w_buf (s_buf s) !! p with Some x => length x | None => 0 end)) = false).
  { apply Nat.ltb_ge. rewrite H1, H3, Hd. destruct (w_buf (s_buf s) !! p) as [y|] eqn:E; [rewrite (H4 _ _ E)|]; nia. }
  rewrite Hno in H. assert (ok = true) by congruence. pose proof (f_equal fst H) as E1. cbn [fst] in E1. subst b. split; [done|]. cbn [w_max w_dirty w_buf w_size].
  split; [done|]. destruct (w_buf (s_buf s) !! p) as [y|] eqn:E.
  - rewrite map_size_insert_Some by eauto. pose proof (H4 _ _ E) as Hy. cbn in Hy. rewrite Hy, Hd. split; [done|]. split; [lia|]. split; [by apply map_Forall_insert_2|done].
  - rewrite map_size_insert_None by done. rewrite Hd. split; [lia|]. split; [nia|]. split; [by apply map_Forall_insert_2|done].
Qed.
Lemma write_one_inv g s m p d due f c bf s1 : d_page g * max 1 (d_threshold g) <= d_max g -> DInv g s m -> write_one g s p d due f c bf = (s1, true) -> DInv g s1 (<[p := d]> m).
Proof.
  intros Hg HI H. unfold write_one in H. destruct (length d =? d_page g) eqn:Hd; [|cbn in H; congruence]. apply Nat.eqb_eq in Hd. cbn [negb] in H.
  unfold buffer_write in H. destruct (wbuf_write (s_buf s) p d) as [b ok] eqn:Eb. destruct (put_inv _ _ _ _ _ Hg HI Hd _ _ Eb) as (-> & B1 & B2 & B3 & B4 & B5).
  assert (Hm : forall q e, <[p := d]> m !! q = Some e -> w_buf b !! q = Some e \/ w_buf b !! q = None /\ s_file s !! q = Some e).
  { intros q e Hq. rewrite B5. apply lookup_insert_Some in Hq as [[-> ->]|[Hne Hq]]; [left; apply lookup_insert|]. rewrite lookup_insert_ne by done. by apply (di_all _ _ _ HI). }
  set (sb := set_buf s b) in H. destruct ((d_threshold g <=? w_dirty b) || due) eqn:Ef.
  - destruct (drain g sb f) as [s2 r] eqn:Ed. destruct r as [l|]; [|congruence]. destruct (drain_all _ _ _ _ _ Ed) as [-> ->]. cbn [s_buf sb set_buf] in H. rewrite B1 in H.
    set (s3 := if d_cache g && bf then _ else _) in H. assert (H3 : core s3 = core (set_buf sb (wbuf_new (d_max g)))) by (subst s3; destruct (d_cache g && bf); [apply core_store|done]).
    clearbody s3.
    destruct (match map_to_list (w_buf b) with [] => (s3, true) | _ :: _ => write_pages g s3 (map_to_list (w_buf b)) f end) as [s4 ok4] eqn:E4. destruct ok4; [|congruence].
    assert (H4 : s4 = fold_left file_write (map_to_list (w_buf b)) s3) by (destruct (map_to_list (w_buf b)) as [|x t]; [cbn; congruence|by apply write_pages_ok in E4]).
    destruct (fold_file_all (w_buf b) s3) as [F1 F2]. rewrite <- H4 in F1, F2. rewrite (core_buf _ _ H3) in F2. rewrite (core_file _ _ H3) in F1. cbn in F1, F2.
    assert (Hc : core s1 = core s4) by (destruct (d_cache g && negb bf); [assert (s1 = store_page s4 p d c) by congruence; subst s1; apply core_store|congruence]).
    apply (dinv_core g s4); [done|]. apply dinv_empty; [by rewrite F2| |done]. rewrite F1. apply (buffered_written g s _ _ Hm).
  - apply orb_false_iff in Ef as [Et _]. apply Nat.leb_gt in Et. set (s3 := if d_cache g && bf then _ else _) in H.
    assert (H3 : core s3 = core sb) by (subst s3; destruct (d_cache g && bf); [apply core_store|done]). clearbody s3.
    assert (Hc : core s1 = core s3) by (destruct (d_cache g && negb bf); [assert (s1 = store_page s3 p d c) by congruence; subst s1; apply core_store|congruence]).
    apply (dinv_core g sb); [by rewrite Hc|]. split; cbn; try done. rewrite <- B2. lia.
Qed.
Lemma write_list_inv g l : forall s m s1, d_page g * max 1 (d_threshold g) <= d_max g -> DInv g s m -> write_list g s l = (s1, true) -> DInv g s1 (fold_left (fun m x => <[x.1.1 := x.1.2]> m) l m).
Proof.
  induction l as [|[[p d] [[due f] c]] l IH]; intros s m s1 Hg HI H; cbn in H; [assert (s1 = s) by congruence; by subst|].
  destruct (write_one g s p d due f c false) as [s2 ok] eqn:E. destruct ok; [|congruence]. cbn [fold_left fst snd]. eapply IH; [done| |done]. by eapply write_one_inv.
Qed.
Lemma dstep_inv g s m o s1 r : d_page g * max 1 (d_threshold g) <= d_max g -> DInv g s m -> sequential o -> dstep g s o = (s1, r) -> ok_call (o, r) ->
  DInv g s1 (note m (o, r)) /\ (forall f, o = DFlush f -> forall p d, m !! p = Some d -> s_file s1 !! p = Some d).
Proof.
  intros Hg HI Hs H Hok. destruct o as [p d due1 f1 c due2 f2|l due2 f2|p k|f|t f|t f]; cbn [dstep] in H; try done.
  - split; [|done]. unfold write_page in H. destruct (write_one g s p d due1 f1 c true) as [s2 ok] eqn:E. destruct r; try done. cbn [note]. destruct ok; [|unfold answer in H; cbn in H; congruence]. cbn [negb] in H.
    pose proof (write_one_inv _ _ _ _ _ _ _ _ _ _ Hg HI E) as HI2. destruct (should_flush g s2 due2).
    + destruct (flush g s2 f2) as [s3 ok3] eqn:E3. destruct ok3; [|unfold answer in H; cbn in H; congruence]. assert (s1 = s3) by (unfold answer in H; cbn in H; congruence). subst. by eapply flush_inv.
    + assert (s1 = s2) by (unfold answer in H; cbn in H; congruence). by subst.
  - split; [|done]. unfold write_batch in H. destruct (write_list g s l) as [s2 ok] eqn:E. destruct r; try done. cbn [note]. destruct ok; [|unfold answer in H; cbn in H; congruence]. cbn [negb] in H.
    pose proof (write_list_inv _ _ _ _ _ Hg HI E) as HI2. destruct (should_flush g s2 due2).
    + destruct (flush g s2 f2) as [s3 ok3] eqn:E3. destruct ok3; [|unfold answer in H; cbn in H; congruence]. assert (s1 = s3) by (unfold answer in H; cbn in H; congruence). subst. by eapply flush_inv.
    + assert (s1 = s2) by (unfold answer in H; cbn in H; congruence). by subst.
  - split; [|done]. cbn [note]. apply (dinv_core g s); [symmetry; by eapply core_read|done].
  - destruct (flush g s f) as [s3 ok3] eqn:E3. destruct r; try done. destruct ok3; [|unfold answer in H; cbn in H; congruence]. assert (s1 = s3) by (unfold answer in H; cbn in H; congruence). subst. destruct (flush_inv _ _ _ _ _ HI E3) as (H1 & H2 & _). split; [done|]. intros f0 _. done.
Qed.
Lemma drun_inv g s m ops s1 tr : d_page g * max 1 (d_threshold g) <= d_max g -> DInv g s m -> Forall sequential ops -> drun g s ops = (s1, tr) -> Forall ok_call tr -> DInv g s1 (fold_left note tr m).
Proof.
  intros Hg. revert s m s1 tr. induction ops as [|o ops IH]; intros s m s1 tr HI Hs H Hok; cbn [drun] in H.
  - assert (s1 = s) by congruence. assert (tr = []) by congruence. by subst.
  - apply Forall_cons in Hs as [Hs1 Hs2]. destruct (dstep g s o) as [s2 r] eqn:E. destruct (drun g s2 ops) as [s3 t3] eqn:E3. assert (s3 = s1) by congruence. assert (tr = (o, r) :: t3) by congruence. subst.
    apply Forall_cons in Hok as [Hok1 Hok2]. cbn [fold_left]. eapply IH; [|done|done|done]. by eapply dstep_inv.
Qed.

(** ** One content of a page everywhere *)
Definition same (x : option bytes) (d : bytes) : Prop := x = None \/ x = Some d.
Record only (s : disk) (p : N) (d : bytes) : Prop := {
  on_hot : same (s_hot s !! p) d; on_warm : same (s_warm s !! p) d; on_cold : same (s_cold s !! p) d;
  on_buf : same (w_buf (s_buf s) !! p) d; on_file : same (s_file s !! p) d;
  on_fly : forall t l e, s_fly s !! t = Some l -> (p, e) ∈ l -> e = d }.
Lemma tier_same m q e out p d : same (m !! p) d -> (q = p -> e = d) -> same (tier_put m q e out !! p) d.
Proof.
  intros H1 H2. unfold tier_put. destruct (filter (fun x => x.1 ∉ out) (<[q := e]> m) !! p) as [y|] eqn:E; [|by left].
  apply map_filter_lookup_Some in E as [E _]. right. apply lookup_insert_Some in E as [[-> ->]|[Hne E]]; [by rewrite H2|]. destruct H1 as [H1|H1]; congruence.
Qed.
Lemma only_record s p d q b : only s p d -> only (record_access s q b) p d.
Proof. destruct b; [|done]. intros []. by split. Qed.
Lemma only_store s p d q e c : only s p d -> (q = p -> e = d) -> only (store_page s q e c) p d.
Proof.
  intros H Hq. unfold store_page. destruct (negb (c_admit c)); [done|]. destruct (c_dedup c && _); [done|]. apply only_record. destruct H.
  split; cbn; try done; (match goal with |- same ((if ?b then _ else _) !! _) _ => destruct b end; [by apply tier_same|done]).
Qed.
Lemma only_look s p d q k s1 r : only s p d -> lookup_page s q k = (s1, r) -> only s1 p d /\ (q = p -> same r d).
Proof.
  intros H E. unfold lookup_page in E. assert (H0 : only (record_access s q (k_rec k)) p d) by (by apply only_record). set (s0 := record_access s q (k_rec k)) in *. clearbody s0. clear H. destruct H0 as [O1 O2 O3 O4 O5 O6].
  destruct (if k_hot k then s_hot s0 !! q else None) as [x|] eqn:E1.
  { assert (s1 = s0) by congruence. assert (r = Some x) by congruence. subst. split; [by split|]. intros ->. destruct (k_hot k); [|done]. by rewrite E1 in O1. }
  destruct (if k_warm k then s_warm s0 !! q else None) as [x|] eqn:E2.
  { assert (r = Some x) by congruence. pose proof (f_equal fst E) as Es. cbn [fst] in Es. subst s1 r. assert (Hx : q = p -> x = d) by (intros ->; destruct (k_warm k); [|done]; destruct O2; congruence).
    split; [|intros Hq; right; by rewrite Hx]. split; cbn; try done. destruct (k_up k); [by apply tier_same|done]. }
  destruct (if k_cold k then s_cold s0 !! q else None) as [x|] eqn:E3.
  { assert (r = Some x) by congruence. pose proof (f_equal fst E) as Es. cbn [fst] in Es. subst s1 r. assert (Hx : q = p -> x = d) by (intros ->; destruct (k_cold k); [|done]; destruct O3; congruence).
    split; [|intros Hq; right; by rewrite Hx]. split; cbn; try done. destruct (k_up k); [by apply tier_same|done]. }
  assert (s1 = s0) by congruence. assert (r = None) by congruence. subst. split; [by split|]. intros _. by left.
Qed.
Lemma only_file_write l s p d : only s p d -> (forall e, (p, e) ∈ l -> e = d) -> only (fold_left file_write l s) p d.
Proof.
  revert s. induction l as [|[q e] l IH]; intros s H Hl; [done|]. cbn [fold_left]. apply IH; [|intros e' He; apply Hl, elem_of_cons; by right].
  destruct H. split; cbn; try done. destruct (decide (q = p)) as [->|Hne]; [rewrite lookup_insert; right; f_equal; apply Hl, elem_of_cons; by left|by rewrite lookup_insert_ne].
Qed.
Lemma only_write_pages g s l f p d s1 ok : only s p d -> (forall e, (p, e) ∈ l -> e = d) -> write_pages g s l f = (s1, ok) -> only s1 p d.
Proof.
  intros H Hl E. unfold write_pages in E. destruct (f_wr f) as [ps|]; pose proof (f_equal fst E) as Es; cbn [fst] in Es; subst s1; apply only_file_write; try done.
  intros e [_ He]%elem_of_list_filter. by apply Hl.
Qed.
Lemma only_drain g s f p d s1 r : only s p d -> drain g s f = (s1, r) -> only s1 p d /\ forall l e, r = Some l -> (p, e) ∈ l -> e = d.
Proof.
  intros H E. unfold drain, wbuf_drain in E. assert (H1 : only (set_buf s (mkWbuf ∅ 0 0 (w_max (s_buf s)))) p d) by (destruct H; split; cbn; try done; by left).
  assert (Hin : forall e, (p, e) ∈ map_to_list (w_buf (s_buf s)) -> e = d) by (intros e He; apply elem_of_map_to_list in He; destruct (on_buf _ _ _ H); congruence).
  destruct (map_to_list (w_buf (s_buf s))) as [|x t].
  - pose proof (f_equal fst E) as Es. cbn [fst] in Es. subst s1. split; [done|]. intros l e Hl He. assert (l = []) by congruence. subst. by apply elem_of_nil in He.
  - destruct (d_dur g && f_pre f); pose proof (f_equal fst E) as Es; cbn [fst] in Es; subst s1; (split; [done|]); intros l e Hl He; [congruence|]. assert (l = x :: t) by congruence. subst. by apply Hin.
Qed.
Lemma only_flush_pages g s f p d s1 ok : only s p d -> flush_pages g s f = (s1, ok) -> only s1 p d.
Proof.
  intros H E. unfold flush_pages in E. destruct (drain g s f) as [s2 r] eqn:Ed. destruct (only_drain _ _ _ _ _ _ _ H Ed) as [H2 Hl]. destruct r as [[|x t]|].
  - assert (s1 = s2) by congruence. by subst.
  - eapply only_write_pages; [exact H2| |exact E]. intros e. by apply Hl.
  - assert (s1 = s2) by congruence. by subst.
Qed.
Lemma only_flush g s f p d s1 ok : only s p d -> flush g s f = (s1, ok) -> only s1 p d.
Proof. intros H E. unfold flush in E. destruct (flush_pages g s f) as [s2 ok2] eqn:E2. assert (s1 = s2) by (destruct ok2; congruence). subst. by eapply only_flush_pages. Qed.
Lemma only_write_one g s q e due f c bf p d s1 ok : only s p d -> (q = p -> e = d) -> write_one g s q e due f c bf = (s1, ok) -> only s1 p d.
Proof.
  intros H Hq E. unfold write_one in E. destruct (negb _); [assert (s1 = s) by congruence; by subst|]. unfold buffer_write in E. destruct (wbuf_write (s_buf s) q e) as [b okb] eqn:Eb.
  assert (H1 : only (set_buf s b) p d).
  { destruct H as [O1 O2 O3 O4 O5 O6]. split; cbn; try done. unfold wbuf_write in Eb. destruct (w_max (s_buf s) <? _); [assert (b = s_buf s) by congruence; by subst|].
    pose proof (f_equal fst Eb) as Es. cbn [fst] in Es. subst b. cbn [w_buf]. destruct (decide (q = p)) as [->|]; [rewrite lookup_insert; right; by rewrite Hq|by rewrite lookup_insert_ne]. }
  set (s0 := set_buf s b) in *. clearbody s0.
  destruct (if (if okb then (d_threshold g <=? w_dirty b) || due else true) then drain g s0 f else (s0, Some [])) as [s2 r] eqn:Ed.
  assert (H2 : only s2 p d /\ forall l e, r = Some l -> (p, e) ∈ l -> e = d).
  { destruct (if okb then _ else true); [by eapply only_drain|]. assert (s2 = s0) by congruence. subst. split; [done|]. intros l e' Hl He. assert (l = []) by congruence. subst. by apply elem_of_nil in He. }
  destruct H2 as [H2 Hl]. destruct r as [l|]; [|assert (s1 = s2) by congruence; by subst].
  set (s3 := if d_cache g && bf then store_page s2 q e c else s2) in E. assert (H3 : only s3 p d) by (subst s3; destruct (d_cache g && bf); [by apply only_store|done]). clearbody s3.
  destruct (match l with [] => (s3, true) | _ :: _ => write_pages g s3 l f end) as [s4 ok4] eqn:E4.
  assert (H4 : only s4 p d) by (destruct l; [assert (s4 = s3) by congruence; by subst|eapply only_write_pages; [exact H3| |exact E4]; intros e'; by apply Hl]).
  destruct ok4; [|assert (s1 = s4) by congruence; by subst]. destruct (d_cache g && negb bf); [assert (s1 = store_page s4 q e c) by congruence; subst; by apply only_store|assert (s1 = s4) by congruence; by subst].
Qed.
Lemma only_write_list g l : forall s p d s1 ok, only s p d -> (forall e, (p, e) ∈ l.*1 -> e = d) -> write_list g s l = (s1, ok) -> only s1 p d.
Proof.
  induction l as [|[[q e] [[due f] c]] l IH]; intros s p d s1 ok H Hl E; cbn in E; [assert (s1 = s) by congruence; by subst|].
  destruct (write_one g s q e due f c false) as [s2 ok2] eqn:E2. assert (H2 : only s2 p d) by (eapply only_write_one; [exact H| |exact E2]; intros ->; apply Hl; cbn; apply elem_of_cons; by left).
  destruct ok2; [|assert (s1 = s2) by congruence; by subst]. eapply IH; [exact H2| |exact E]. intros e' He. apply Hl. cbn. apply elem_of_cons. by right.
Qed.
Lemma only_step g s o p d s1 r : only s p d -> (forall e, (p, e) ∈ puts o -> e = d) -> (s_file s !! p = Some d \/ ~ reads_page p o) -> (forall q, is_Some (s_file s !! q) -> q < s_len s)%N -> dstep g s o = (s1, r) ->
  only s1 p d /\ forall k, o = DRead p k -> s_file s !! p = Some d -> r = Data d \/ r = Failed /\ k_err k = true \/ r = Waits /\ d_steal g = true.
Proof.
  intros H Hp Hr Hlen E. destruct o as [q e due1 f1 c due2 f2|l due2 f2|q k|f|t f|t f]; cbn [dstep] in E.
  - split; [|done]. unfold write_page in E. destruct (write_one g s q e due1 f1 c true) as [s2 ok] eqn:E2.
    assert (H2 : only s2 p d) by (eapply only_write_one; [exact H| |exact E2]; intros ->; apply Hp; cbn; by apply elem_of_list_singleton).
    unfold answer in E. destruct ok; cbn [negb fst snd] in E; [|assert (s1 = s2) by congruence; by subst]. destruct (should_flush g s2 due2); [|assert (s1 = s2) by (cbn in E; congruence); by subst].
    destruct (flush g s2 f2) as [s3 ok3] eqn:E3. assert (s1 = s3) by (cbn in E; congruence). subst. by eapply only_flush.
  - split; [|done]. unfold write_batch in E. destruct (write_list g s l) as [s2 ok] eqn:E2.
    assert (H2 : only s2 p d) by (eapply only_write_list; [exact H| |exact E2]; done).
    unfold answer in E. destruct ok; cbn [negb fst snd] in E; [|assert (s1 = s2) by congruence; by subst]. destruct (should_flush g s2 due2); [|assert (s1 = s2) by (cbn in E; congruence); by subst].
    destruct (flush g s2 f2) as [s3 ok3] eqn:E3. assert (s1 = s3) by (cbn in E; congruence). subst. by eapply only_flush.
  - unfold read_page in E. destruct (if d_cache g then lookup_page s q k else (s, None)) as [s2 r2] eqn:E2.
    assert (H2 : (only s2 p d /\ (q = p -> same r2 d)) /\ core s2 = core s).
    { destruct (d_cache g); [split; [by eapply only_look|by eapply core_look]|]. assert (s2 = s) by congruence. assert (r2 = None) by congruence. subst. split; [split; [done|intros _; by left]|done]. }
    destruct H2 as [[H2 Hsame] Hc]. destruct r2 as [y|].
    { assert (s1 = s2) by congruence. assert (r = Data y) by congruence. subst. split; [done|]. intros k' Hk Hf. left. assert (q = p) by congruence. subst. destruct Hsame; congruence. }
    destruct (d_steal g) eqn:Es. { assert (s1 = s2) by congruence. assert (r = Waits) by congruence. subst. split; [done|]. intros k' Hk Hf. auto. }
    destruct (k_err k) eqn:Ek. { assert (s1 = s2) by congruence. assert (r = Failed) by congruence. subst. split; [done|]. intros k' Hk Hf. right. left. assert (k = k') by congruence. by subst. }
    assert (Hfile : s_file s2 = s_file s) by (by apply core_file). assert (Hl : s_len s2 = s_len s) by (unfold core in Hc; congruence).
    unfold file_read in E. rewrite Hl, Hfile in E. destruct (q <? s_len s)%N eqn:Elen.
    + set (y := default (replicate (d_page g) 0%N) (s_file s !! q)) in E. assert (Hy : q = p -> s_file s !! p = Some d -> y = d) by (intros -> Hf; subst y; by rewrite Hf).
      assert (r = Data y) by congruence. subst r. split.
      * assert (Hy2 : q = p -> y = d) by (intros ->; destruct Hr as [Hr|Hr]; [auto|exfalso; by apply Hr]). destruct (d_cache g); [assert (s1 = store_page s2 q y (k_store k)) by congruence; subst; by apply only_store|assert (s1 = s2) by congruence; by subst].
      * intros k' Hk Hf. left. assert (q = p) by congruence. f_equal. by apply Hy.
    + assert (s1 = s2) by congruence. subst. split; [done|]. intros k' Hk Hf. exfalso. assert (q = p) by congruence. subst. apply N.ltb_ge in Elen. specialize (Hlen p (ltac:(eauto))). lia.
  - split; [|done]. destruct (flush g s f) as [s3 ok3] eqn:E3. assert (s1 = s3) by (unfold answer in E; cbn in E; congruence). subst. by eapply only_flush.
  - split; [|done]. destruct (drain g s f) as [s2 r2] eqn:Ed. destruct (only_drain _ _ _ _ _ _ _ H Ed) as [H2 Hl]. destruct r2 as [l|]; [|assert (s1 = s2) by congruence; by subst].
    assert (s1 = set_fly s2 (<[t := l]> (s_fly s2))) by congruence. subst. destruct H2 as [O1 O2 O3 O4 O5 O6]. split; cbn; try done.
    intros t' l' e Hl' He. apply lookup_insert_Some in Hl' as [[-> ->]|[_ Hl']]; [by eapply Hl|by eapply O6].
  - split; [|done]. destruct (s_fly s !! t) as [l|] eqn:El; [|assert (s1 = s) by congruence; by subst].
    assert (H1 : only (set_fly s (delete t (s_fly s))) p d).
    { destruct H as [O1 O2 O3 O4 O5 O6]. split; cbn; try done. intros t' l' e [_ Hl']%lookup_delete_Some He. by eapply O6. }
    set (sd := set_fly s (delete t (s_fly s))) in *. destruct (match l with [] => (sd, true) | _ :: _ => write_pages g sd l f end) as [s2 ok] eqn:E2. assert (s1 = s2) by (unfold answer in E; cbn in E; congruence). subst.
    destruct l as [|x l]; [assert (s2 = sd) by congruence; by subst|]. eapply only_write_pages; [exact H1| |exact E2]. intros e He. eapply (on_fly _ _ _ H); done.
Qed.
(** Pages of the file lie below its length, and a page never leaves the file. *)
Definition long (s : disk) : Prop := forall q, is_Some (s_file s !! q) -> (q < s_len s)%N.
Definition grow (s t : disk) : Prop := (long s -> long t) /\ forall q, is_Some (s_file s !! q) -> is_Some (s_file t !! q).
Lemma grow_refl s : grow s s.
Proof. by split. Qed.
Lemma grow_trans s t u : grow s t -> grow t u -> grow s u.
Proof. intros [? ?] [? ?]. split; auto. Qed.
Lemma grow_core s t : core s = core t -> grow s t.
Proof. unfold core, grow, long. intros H. assert (s_file s = s_file t) as Hf by congruence. assert (s_len s = s_len t) as Hl by congruence. rewrite Hf, Hl. done. Qed.
Lemma grow_fold l s : grow s (fold_left file_write l s).
Proof.
  revert s. induction l as [|[p d] l IH]; intros s; [apply grow_refl|]. cbn [fold_left]. eapply grow_trans; [|apply IH]. split.
  - intros H q Hq. cbn in *. destruct (decide (q = p)) as [->|]; [lia|]. rewrite lookup_insert_ne in Hq by done. apply H in Hq. lia.
  - intros q Hq. cbn. destruct (decide (q = p)) as [->|]; [rewrite lookup_insert; eauto|by rewrite lookup_insert_ne].
Qed.
Lemma grow_set_buf s b : grow s (set_buf s b).
Proof. by split. Qed.
Lemma grow_drain g s f s1 r : drain g s f = (s1, r) -> grow s s1.
Proof. unfold drain, wbuf_drain. intros E. assert (s1 = set_buf s (mkWbuf ∅ 0 0 (w_max (s_buf s)))) by (destruct (map_to_list _); [|destruct (d_dur g && f_pre f)]; congruence). subst. apply grow_set_buf. Qed.
Lemma grow_write_pages g s l f s1 ok : write_pages g s l f = (s1, ok) -> grow s s1.
Proof. unfold write_pages. destruct (f_wr f); intros E; pose proof (f_equal fst E) as Es; cbn [fst] in Es; subst s1; apply grow_fold. Qed.
Lemma grow_flush g s f s1 ok : flush g s f = (s1, ok) -> grow s s1.
Proof.
  intros E. unfold flush in E. destruct (flush_pages g s f) as [s2 ok2] eqn:E2. assert (s1 = s2) by (destruct ok2; congruence). subst. unfold flush_pages in E2. destruct (drain g s f) as [s3 r] eqn:Ed.
  eapply grow_trans; [by eapply grow_drain|]. destruct r as [[|x t]|]; [assert (s2 = s3) by congruence; subst; apply grow_refl|by eapply grow_write_pages|assert (s2 = s3) by congruence; subst; apply grow_refl].
Qed.
Lemma grow_write_one g s q e due f c bf s1 ok : write_one g s q e due f c bf = (s1, ok) -> grow s s1.
Proof.
  intros E. unfold write_one in E. destruct (negb _); [assert (s1 = s) by congruence; subst; apply grow_refl|]. unfold buffer_write in E. destruct (wbuf_write (s_buf s) q e) as [b okb] eqn:Eb.
  eapply grow_trans; [apply (grow_set_buf s b)|]. set (s0 := set_buf s b) in *. clearbody s0.
  destruct (if (if okb then (d_threshold g <=? w_dirty b) || due else true) then drain g s0 f else (s0, Some [])) as [s2 r] eqn:Ed.
  assert (H2 : grow s0 s2) by (destruct (if okb then _ else true); [by eapply grow_drain|assert (s2 = s0) by congruence; subst; apply grow_refl]).
  eapply grow_trans; [exact H2|]. destruct r as [l|]; [|assert (s1 = s2) by congruence; subst; apply grow_refl].
  set (s3 := if d_cache g && bf then store_page s2 q e c else s2) in E. assert (H3 : grow s2 s3) by (subst s3; destruct (d_cache g && bf); [apply grow_core; symmetry; apply core_store|apply grow_refl]). clearbody s3.
  eapply grow_trans; [exact H3|]. destruct (match l with [] => (s3, true) | _ :: _ => write_pages g s3 l f end) as [s4 ok4] eqn:E4.
  assert (H4 : grow s3 s4) by (destruct l; [assert (s4 = s3) by congruence; subst; apply grow_refl|by eapply grow_write_pages]). eapply grow_trans; [exact H4|].
  destruct ok4; [|assert (s1 = s4) by congruence; subst; apply grow_refl]. destruct (d_cache g && negb bf); [assert (s1 = store_page s4 q e c) by congruence; subst; apply grow_core; symmetry; apply core_store|assert (s1 = s4) by congruence; subst; apply grow_refl].
Qed.
Lemma grow_write_list g l : forall s s1 ok, write_list g s l = (s1, ok) -> grow s s1.
Proof.
  induction l as [|[[q e] [[due f] c]] l IH]; intros s s1 ok E; cbn in E; [assert (s1 = s) by congruence; subst; apply grow_refl|].
  destruct (write_one g s q e due f c false) as [s2 ok2] eqn:E2. eapply grow_trans; [by eapply grow_write_one|]. destruct ok2; [by eapply IH|assert (s1 = s2) by congruence; subst; apply grow_refl].
Qed.
Lemma grow_step g s o s1 r : dstep g s o = (s1, r) -> grow s s1.
Proof.
  intros E. destruct o as [q e due1 f1 c due2 f2|l due2 f2|q k|f|t f|t f]; cbn [dstep] in E.
  - unfold write_page in E. destruct (write_one g s q e due1 f1 c true) as [s2 ok] eqn:E2. eapply grow_trans; [by eapply grow_write_one|].
    unfold answer in E. destruct ok; cbn [negb fst snd] in E; [|assert (s1 = s2) by congruence; subst; apply grow_refl]. destruct (should_flush g s2 due2); [|assert (s1 = s2) by (cbn in E; congruence); subst; apply grow_refl].
    destruct (flush g s2 f2) as [s3 ok3] eqn:E3. assert (s1 = s3) by (cbn in E; congruence). subst. by eapply grow_flush.
  - unfold write_batch in E. destruct (write_list g s l) as [s2 ok] eqn:E2. eapply grow_trans; [by eapply grow_write_list|].
    unfold answer in E. destruct ok; cbn [negb fst snd] in E; [|assert (s1 = s2) by congruence; subst; apply grow_refl]. destruct (should_flush g s2 due2); [|assert (s1 = s2) by (cbn in E; congruence); subst; apply grow_refl].
    destruct (flush g s2 f2) as [s3 ok3] eqn:E3. assert (s1 = s3) by (cbn in E; congruence). subst. by eapply grow_flush.
  - apply grow_core. symmetry. by eapply core_read.
  - destruct (flush g s f) as [s3 ok3] eqn:E3. assert (s1 = s3) by (unfold answer in E; cbn in E; congruence). subst. by eapply grow_flush.
  - destruct (drain g s f) as [s2 r2] eqn:Ed. eapply grow_trans; [by eapply grow_drain|]. destruct r2 as [l|]; [|assert (s1 = s2) by congruence; subst; apply grow_refl].
    assert (s1 = set_fly s2 (<[t := l]> (s_fly s2))) by congruence. subst. by split.
  - destruct (s_fly s !! t) as [l|] eqn:El; [|assert (s1 = s) by congruence; subst; apply grow_refl].
    set (sd := set_fly s (delete t (s_fly s))) in *. assert (grow s sd) by (by split). destruct (match l with [] => (sd, true) | _ :: _ => write_pages g sd l f end) as [s2 ok] eqn:E2. assert (s1 = s2) by (unfold answer in E; cbn in E; congruence). subst.
    eapply grow_trans; [done|]. destruct l as [|x l]; [assert (s2 = sd) by congruence; subst; apply grow_refl|by eapply grow_write_pages].
Qed.
Lemma grow_run g s ops s1 tr : drun g s ops = (s1, tr) -> grow s s1.
Proof.
  revert s s1 tr. induction ops as [|o ops IH]; intros s s1 tr E; cbn [drun] in E; [assert (s1 = s) by congruence; subst; apply grow_refl|].
  destruct (dstep g s o) as [s2 r] eqn:E2. destruct (drun g s2 ops) as [s3 t3] eqn:E3. assert (s3 = s1) by congruence. subst. eapply grow_trans; [by eapply grow_step|by eapply IH].
Qed.
(** Until the page is written with another content, every read returns that content. *)
Lemma only_run g p d ops : forall s s1 tr, only s p d -> long s -> s_file s !! p = Some d -> (forall o e, o ∈ ops -> (p, e) ∈ puts o -> e = d) -> drun g s ops = (s1, tr) ->
  forall k r, (DRead p k, r) ∈ tr -> r = Data d \/ r = Failed /\ k_err k = true \/ r = Waits /\ d_steal g = true.
Proof.
  induction ops as [|o ops IH]; intros s s1 tr H Hl Hf Hp E k r Hin; cbn [drun] in E; [assert (tr = []) by congruence; subst; by apply elem_of_nil in Hin|].
  destruct (dstep g s o) as [s2 r2] eqn:E2. destruct (drun g s2 ops) as [s3 t3] eqn:E3. assert (tr = (o, r2) :: t3) by congruence. subst.
  assert (Hp1 : forall e, (p, e) ∈ puts o -> e = d) by (intros e; apply Hp, elem_of_cons; by left).
  destruct (only_step g s o p d s2 r2 H Hp1 (or_introl Hf) Hl E2) as [H2 Hread].
  destruct (grow_step _ _ _ _ _ E2) as [G1 G2]. apply elem_of_cons in Hin as [Hin|Hin].
  - assert (r = r2) by congruence. subst r. apply Hread; [congruence|done].
  - destruct (G2 p) as [y Hy]; [eauto|]. pose proof (on_file _ _ _ H2) as Hs. rewrite Hy in Hs. destruct Hs as [Hs|Hs]; [done|].
    eapply IH; [exact H2|auto|congruence| |exact E3|exact Hin]. intros o' e Ho. apply Hp, elem_of_cons. by right.
Qed.
Lemma only_pre g p d ops : forall s s1 tr, only s p d -> long s -> (forall o e, o ∈ ops -> (p, e) ∈ puts o -> e = d) -> (forall o, o ∈ ops -> ~ reads_page p o) -> drun g s ops = (s1, tr) -> only s1 p d /\ long s1.
Proof.
  induction ops as [|o ops IH]; intros s s1 tr H Hl Hp Hr E; cbn [drun] in E; [assert (s1 = s) by congruence; by subst|].
  destruct (dstep g s o) as [s2 r2] eqn:E2. destruct (drun g s2 ops) as [s3 t3] eqn:E3. assert (s3 = s1) by congruence. subst.
  assert (Hp1 : forall e, (p, e) ∈ puts o -> e = d) by (intros e; apply Hp, elem_of_cons; by left).
  assert (Hr1 : ~ reads_page p o) by (apply Hr, elem_of_cons; by left).
  destruct (only_step g s o p d s2 r2 H Hp1 (or_intror Hr1) Hl E2) as [H2 _].
  eapply IH; [exact H2| | | |exact E3]; [by apply (grow_step _ _ _ _ _ E2)|intros o' e Ho; apply Hp, elem_of_cons; by right|intros o' Ho; apply Hr, elem_of_cons; by right].
Qed.
Lemma only_new g p d : only (disk_new g) p d.
Proof. split; cbn; try (left; apply lookup_empty). intros t l e H. by rewrite lookup_empty in H. Qed.
Lemma long_new g : long (disk_new g).
Proof. intros q [? H]. cbn in H. by rewrite lookup_empty in H. Qed.
Lemma drun_app g s l1 l2 : drun g s (l1 ++ l2) = let '(s1, t1) := drun g s l1 in let '(s2, t2) := drun g s1 l2 in (s2, t1 ++ t2).
Proof.
  revert s. induction l1 as [|o l1 IH]; intros s; [cbn; by destruct (drun g s l2)|]. cbn [app drun]. destruct (dstep g s o) as [s2 r]. rewrite IH. destruct (drun g s2 l1) as [s3 t3]. destruct (drun g s3 l2). done.
Qed.
(** Without the cache the tiers stay empty; without other tasks nothing is in flight. *)
Definition bare (s : disk) : Prop := s_hot s = ∅ /\ s_warm s = ∅ /\ s_cold s = ∅ /\ s_fly s = ∅.
Lemma bare_fold l s : bare s -> bare (fold_left file_write l s).
Proof. revert s. induction l as [|x l IH]; intros s H; [done|]. cbn. apply IH. exact H. Qed.
Lemma bare_drain g s f s1 r : bare s -> drain g s f = (s1, r) -> bare s1.
Proof. unfold drain, wbuf_drain. intros H E. assert (s1 = set_buf s (mkWbuf ∅ 0 0 (w_max (s_buf s)))) by (destruct (map_to_list _); [|destruct (d_dur g && f_pre f)]; congruence). subst. exact H. Qed.
Lemma bare_write_pages g s l f s1 ok : bare s -> write_pages g s l f = (s1, ok) -> bare s1.
Proof. unfold write_pages. intros H. destruct (f_wr f); intros E; pose proof (f_equal fst E) as Es; cbn [fst] in Es; subst s1; by apply bare_fold. Qed.
Lemma bare_flush g s f s1 ok : bare s -> flush g s f = (s1, ok) -> bare s1.
Proof.
  intros H E. unfold flush in E. destruct (flush_pages g s f) as [s2 ok2] eqn:E2. assert (s1 = s2) by (destruct ok2; congruence). subst. unfold flush_pages in E2. destruct (drain g s f) as [s3 r] eqn:Ed.
  apply (bare_drain _ _ _ _ _ H) in Ed. destruct r as [[|x t]|]; [assert (s2 = s3) by congruence; by subst|by eapply bare_write_pages|assert (s2 = s3) by congruence; by subst].
Qed.
Lemma bare_write_one g s q e due f c bf s1 ok : d_cache g = false -> bare s -> write_one g s q e due f c bf = (s1, ok) -> bare s1.
Proof.
  intros Hc H E. unfold write_one in E. rewrite Hc in E. cbn [andb] in E. destruct (negb (length e =? d_page g)); [assert (s1 = s) by congruence; by subst|]. unfold buffer_write in E. destruct (wbuf_write (s_buf s) q e) as [b okb] eqn:Eb.
  assert (H0 : bare (set_buf s b)) by exact H. set (s0 := set_buf s b) in *. clearbody s0.
  destruct (if (if okb then (d_threshold g <=? w_dirty b) || due else true) then drain g s0 f else (s0, Some [])) as [s2 r] eqn:Ed.
  assert (H2 : bare s2) by (destruct (if okb then _ else true); [by eapply bare_drain|assert (s2 = s0) by congruence; by subst]).
  destruct r as [l|]; [|assert (s1 = s2) by congruence; by subst].
  destruct (match l with [] => (s2, true) | _ :: _ => write_pages g s2 l f end) as [s4 ok4] eqn:E4.
  assert (H4 : bare s4) by (destruct l; [assert (s4 = s2) by congruence; by subst|by eapply bare_write_pages]).
  destruct ok4; assert (s1 = s4) by congruence; by subst.
Qed.
Lemma bare_write_list g l : forall s s1 ok, d_cache g = false -> bare s -> write_list g s l = (s1, ok) -> bare s1.
Proof.
  induction l as [|[[q e] [[due f] c]] l IH]; intros s s1 ok Hc H E; cbn in E; [assert (s1 = s) by congruence; by subst|].
  destruct (write_one g s q e due f c false) as [s2 ok2] eqn:E2. apply (bare_write_one _ _ _ _ _ _ _ _ _ _ Hc H) in E2. destruct ok2; [by eapply IH|assert (s1 = s2) by congruence; by subst].
Qed.
Lemma bare_step g s o s1 r : d_cache g = false -> bare s -> sequential o -> dstep g s o = (s1, r) -> bare s1.
Proof.
  intros Hc H Hs E. destruct o as [q e due1 f1 c due2 f2|l due2 f2|q k|f|t f|t f]; cbn [dstep] in E; try done.
  - unfold write_page in E. destruct (write_one g s q e due1 f1 c true) as [s2 ok] eqn:E2. apply (bare_write_one _ _ _ _ _ _ _ _ _ _ Hc H) in E2.
    unfold answer in E. destruct ok; cbn [negb fst snd] in E; [|assert (s1 = s2) by congruence; by subst]. destruct (should_flush g s2 due2); [|assert (s1 = s2) by (cbn in E; congruence); by subst].
    destruct (flush g s2 f2) as [s3 ok3] eqn:E3. assert (s1 = s3) by (cbn in E; congruence). subst. by eapply bare_flush.
  - unfold write_batch in E. destruct (write_list g s l) as [s2 ok] eqn:E2. apply (bare_write_list _ _ _ _ _ Hc H) in E2.
    unfold answer in E. destruct ok; cbn [negb fst snd] in E; [|assert (s1 = s2) by congruence; by subst]. destruct (should_flush g s2 due2); [|assert (s1 = s2) by (cbn in E; congruence); by subst].
    destruct (flush g s2 f2) as [s3 ok3] eqn:E3. assert (s1 = s3) by (cbn in E; congruence). subst. by eapply bare_flush.
  - unfold read_page in E. rewrite Hc in E. assert (s1 = s) by (destruct (d_steal g); [congruence|]; destruct (k_err k); [congruence|]; destruct (file_read g s q); congruence). by subst.
  - destruct (flush g s f) as [s3 ok3] eqn:E3. assert (s1 = s3) by (unfold answer in E; cbn in E; congruence). subst. by eapply bare_flush.
Qed.
Lemma bare_run g s ops s1 tr : d_cache g = false -> bare s -> Forall sequential ops -> drun g s ops = (s1, tr) -> bare s1.
Proof.
  intros Hc. revert s s1 tr. induction ops as [|o ops IH]; intros s s1 tr H Hs E; cbn [drun] in E; [assert (s1 = s) by congruence; by subst|]. apply Forall_cons in Hs as [Hs1 Hs2].
  destruct (dstep g s o) as [s2 r] eqn:E2. destruct (drun g s2 ops) as [s3 t3] eqn:E3. assert (s3 = s1) by congruence. subst. eapply IH; [|done|done]. by eapply bare_step.
Qed.
