From Coq Require Import NArith Lia.
From stdpp Require Import gmap list sorting.
From Verif Require Import WbufSpec WbufModel.

(** ** Staging buffer *)
Lemma sum_perm {A} (f : A -> nat) l1 l2 : l1 ≡ₚ l2 -> sum_list_with f l1 = sum_list_with f l2.
Proof. induction 1; cbn; lia. Qed.
Lemma total_insert m p d : total (<[p := d]> m) + match m !! p with Some x => length x | None => 0 end = total m + length d.
Proof.
  unfold total. destruct (m !! p) as [x|] eqn:E.
  - rewrite <- (insert_delete _ _ _ E) at 2. rewrite <- (insert_delete_insert m p d).
    rewrite (sum_perm _ _ _ (map_to_list_insert (delete p m) p d (lookup_delete m p))), (sum_perm _ _ _ (map_to_list_insert (delete p m) p x (lookup_delete m p))). cbn. lia.
  - rewrite (sum_perm _ _ _ (map_to_list_insert m p d E)). cbn. lia.
Qed.
Record WInv (b : wbuf) (m : gmap N bytes) : Prop := {
  wi_buf : w_buf b = m;
  wi_dirty : w_dirty b = size m;
  wi_low : total m <= w_size b;
  wi_high : w_size b <= w_max b }.
Lemma winv_new n : WInv (wbuf_new n) ∅.
Proof. split; cbn; [done|by rewrite map_size_empty|unfold total; rewrite map_to_list_empty; cbn; lia|lia]. Qed.
Lemma wstep_inv b m o b1 x : WInv b m -> wstep b o = (b1, x) -> WInv b1 (wsee m (o, x)) /\ w_max b1 = w_max b.
Proof.
  intros [Hb Hd Hl Hh] H. destruct o as [p d|]; cbn in H.
  - unfold wbuf_write in H. subst m. pose proof (total_insert (w_buf b) p d) as Ht.
    destruct (Nat.ltb_spec (w_max b) (w_size b + (length d - match w_buf b !! p with Some x => length x | None => 0 end))) as [Hlt|Hge].
    + assert (b1 = b) by congruence. assert (x = WTaken false) by congruence. subst. cbn. done.
    + assert (x = WTaken true) by congruence. subst x. pose proof (f_equal fst H) as E1. cbn [fst] in E1. subst b1. cbn [wsee w_max]. split; [|done].
      split; cbn [w_buf w_dirty w_size w_max]; [done| |lia|done]. rewrite map_size_insert. destruct (w_buf b !! p); unfold id; lia.
  - assert (x = WPages (map_to_list (w_buf b))) by congruence. pose proof (f_equal fst H) as E1. cbn [fst] in E1. subst b1 x. cbn. split; [|done].
    split; cbn; [done|by rewrite map_size_empty|unfold total; rewrite map_to_list_empty; cbn; lia|lia].
Qed.
Lemma wrun_inv b m ops b1 tr : WInv b m -> wrun b ops = (b1, tr) -> WInv b1 (fold_left wsee tr m) /\ w_max b1 = w_max b.
Proof.
  revert b m b1 tr. induction ops as [|o ops IH]; intros b m b1 tr HI H; cbn in H.
  - assert (b1 = b) by congruence. assert (tr = []) by congruence. by subst.
  - destruct (wstep b o) as [b2 x] eqn:E. destruct (wrun b2 ops) as [b3 t3] eqn:E2. assert (b3 = b1) by congruence. assert (tr = (o, x) :: t3) by congruence. subst.
    destruct (wstep_inv _ _ _ _ _ HI E) as [HI2 Hm]. destruct (IH _ _ _ _ HI2 E2) as [? ?]. split; [done|congruence].
Qed.
(** Equal lengths: the count is exact. *)
Definition len_is (n : nat) (o : wop) : Prop := match o with WWrite _ d => length d = n | WDrain => True end.
Lemma wstep_exact n b o b1 x : len_is n o -> w_size b = total (w_buf b) -> map_Forall (fun _ d => length d = n) (w_buf b) -> wstep b o = (b1, x) ->
  w_size b1 = total (w_buf b1) /\ map_Forall (fun _ d => length d = n) (w_buf b1).
Proof.
  intros Hn Hs Hf H. destruct o as [p d|]; cbn in H, Hn.
  - unfold wbuf_write in H. pose proof (total_insert (w_buf b) p d) as Ht.
    destruct (_ <? _); [assert (b1 = b) by congruence; by subst|]. pose proof (f_equal fst H) as E1. cbn [fst] in E1. subst b1. cbn [w_size w_buf]. split.
    + destruct (w_buf b !! p) as [y|] eqn:E; [apply Hf in E|]; lia.
    + apply map_Forall_insert_2; done.
  - pose proof (f_equal fst H) as E1. cbn [fst] in E1. subst b1. cbn. split; [unfold total; by rewrite map_to_list_empty|apply map_Forall_empty].
Qed.
Lemma wrun_exact n b ops b1 tr : Forall (len_is n) ops -> w_size b = total (w_buf b) -> map_Forall (fun _ d => length d = n) (w_buf b) -> wrun b ops = (b1, tr) ->
  w_size b1 = total (w_buf b1) /\ map_Forall (fun _ d => length d = n) (w_buf b1).
Proof.
  revert b b1 tr. induction ops as [|o ops IH]; intros b b1 tr Hl Hs Hf H; cbn in H.
  - assert (b1 = b) by congruence. by subst.
  - apply Forall_cons in Hl as [Hl1 Hl2]. destruct (wstep b o) as [b2 x] eqn:E. destruct (wrun b2 ops) as [b3 t3] eqn:E2. assert (b3 = b1) by congruence. subst.
    destruct (wstep_exact _ _ _ _ _ Hl1 Hs Hf E). eauto.
Qed.

(** ** Coalescer *)
Definition same_keys (e : eng) : Prop := forall p, (is_Some (e_pend e !! p) <-> is_Some (e_time e !! p)) /\ (is_Some (e_pend e !! p) <-> is_Some (e_freq e !! p)).
Lemma remove_keys e p : same_keys e -> same_keys (eng_remove e p).
Proof. intros H q. cbn. destruct (decide (q = p)) as [->|]; [rewrite !lookup_delete|rewrite !lookup_delete_ne by done; apply H]. split; split; intros [? ?]; done. Qed.
Lemma insert_keys e p d t f w m l : same_keys e -> same_keys (mkEng (<[p := d]> (e_pend e)) (<[p := t]> (e_time e)) (<[p := f]> (e_freq e)) w m l).
Proof. intros H q. cbn. destruct (decide (q = p)) as [->|]; [rewrite !lookup_insert; split; split; eauto|rewrite !lookup_insert_ne by done; apply H]. Qed.
Lemma fold_remove_keys (L : list (N * N)) e : same_keys e -> same_keys (fold_left (fun e x => eng_remove e x.1) L e).
Proof. revert e. induction L as [|x L IH]; intros e H; [done|]. cbn. apply IH, remove_keys, H. Qed.
Lemma expire_keys L e : same_keys e -> same_keys (fold_left expire_one L e).
Proof. revert e. induction L as [|x L IH]; intros e H; [done|]. cbn. apply IH. unfold expire_one. destruct (e_pend e !! x); [by apply remove_keys|done]. Qed.
Lemma cleanup_keys e now order : same_keys e -> same_keys (simple_cleanup e now order).
Proof. intros H. unfold simple_cleanup. destruct (_ <=? _); [done|]. pose proof (fold_remove_keys (take (size (e_pend e) - e_max e / 2) (by_time order)) e H) as H2. intros p. apply H2. Qed.
Lemma coalesce_keys e p d now order e1 r : same_keys e -> coalesce e p d now order = (e1, r) -> same_keys e1.
Proof.
  intros H E. unfold coalesce in E. destruct d as [|x d]; [assert (e1 = e) by congruence; by subst|]. destruct (e_pend e !! p).
  - pose proof (f_equal fst E) as E1. cbn [fst] in E1. subst e1. by apply insert_keys.
  - pose proof (f_equal fst E) as E1. cbn [fst] in E1. subst e1. cbn [e_max e_pend]. destruct (_ <? _); [apply cleanup_keys|]; by apply insert_keys.
Qed.
Lemma validate_keys e : same_keys e -> validate e = true.
Proof.
  intros H. unfold validate. rewrite !andb_true_iff. split; [split|]; apply forallb_forall; intros x Hx; apply elem_of_list_In in Hx; destruct x as [p y]; apply elem_of_map_to_list in Hx; cbn.
  - apply andb_true_iff. split; apply bool_decide_eq_true; [apply (proj1 (proj1 (H p)))|apply (proj1 (proj2 (H p)))]; eauto.
  - apply bool_decide_eq_true. apply (proj2 (proj1 (H p))). eauto.
  - apply bool_decide_eq_true. apply (proj2 (proj2 (H p))). eauto.
Qed.
Lemma estep_keys e o e1 r ok : same_keys e -> estep e o = (e1, r, ok) -> same_keys e1.
Proof.
  intros H E. destruct o as [p d now order|now extra|w m|now]; cbn in E.
  - destruct (coalesce e p d now order) as [e2 r2] eqn:Ec. assert (e2 = e1) by congruence. subst. by eapply coalesce_keys.
  - destruct (cleanup_expired e now extra) as [e2 ok2] eqn:Ec. assert (e2 = e1) by congruence. subst. unfold cleanup_expired in Ec.
    destruct (_ <? _)%N; [assert (e1 = e) by congruence; by subst|]. pose proof (f_equal fst Ec) as E1. cbn [fst] in E1. subst e1.
    match goal with |- same_keys (mkEng (e_pend ?x) _ _ _ _ _) => assert (H2 : same_keys x) by (by apply expire_keys) end. intros q. apply H2.
  - assert (e1 = mkEng (e_pend e) (e_time e) (e_freq e) w m (e_last e)) by congruence. subst. intros q. apply H.
  - assert (e1 = mkEng ∅ ∅ ∅ (e_window e) (e_max e) now) by congruence. subst. intros q. cbn. rewrite !lookup_empty. split; split; intros [? ?]; done.
Qed.
Lemma erun_keys e tr e1 : erun e tr e1 -> same_keys e -> same_keys e1.
Proof. induction 1; [done|]. intros H2. apply IHerun. by eapply estep_keys. Qed.
Lemma keys_new w m now : same_keys (eng_new w m now).
Proof. intros q. cbn. rewrite !lookup_empty. split; split; intros [? ?]; done. Qed.

Lemma by_time_insert_perm x l : by_time_insert x l ≡ₚ x :: l.
Proof. induction l as [|y l IH]; [done|]. cbn. destruct (_ <=? _)%N; [done|]. rewrite IH. apply Permutation_swap. Qed.
Lemma by_time_perm l : by_time l ≡ₚ l.
Proof. induction l as [|x l IH]; [done|]. cbn. by rewrite by_time_insert_perm, IH. Qed.

Lemma fold_remove_pend (L : list (N * N)) e q : e_pend (fold_left (fun e x => eng_remove e x.1) L e) !! q = if decide (q ∈ L.*1) then None else e_pend e !! q.
Proof.
  revert e. induction L as [|x L IH]; intros e; [done|]. cbn [fold_left]. rewrite IH. cbn [e_pend eng_remove fmap list_fmap].
  destruct (decide (q ∈ L.*1)); [rewrite decide_True; [done|by apply elem_of_cons; right]|].
  destruct (decide (q = x.1)) as [->|Hne]; [rewrite lookup_delete, decide_True; [done|apply elem_of_cons; by left]|].
  rewrite lookup_delete_ne by done. rewrite decide_False; [done|]. intros [?|?]%elem_of_cons; done.
Qed.
Lemma fold_remove_size (L : list (N * N)) e : NoDup L.*1 -> (forall p, p ∈ L.*1 -> is_Some (e_pend e !! p)) ->
  size (e_pend (fold_left (fun e x => eng_remove e x.1) L e)) + length L = size (e_pend e).
Proof.
  revert e. induction L as [|x L IH]; intros e Hnd Hin; cbn [fold_left length fmap list_fmap] in *; [lia|].
  apply NoDup_cons in Hnd as [Hx Hnd]. destruct (Hin x.1) as [y Hy]; [apply elem_of_cons; by left|].
  pose proof (IH (eng_remove e x.1) Hnd) as IH'. cbn [e_pend eng_remove] in *. rewrite map_size_delete, Hy in IH'.
  assert (size (e_pend e) <> 0) by (intros E; apply map_size_empty_inv in E; rewrite E, lookup_empty in Hy; done).
  assert (forall p, p ∈ L.*1 -> is_Some (delete x.1 (e_pend e) !! p)).
  { intros p Hp. rewrite lookup_delete_ne by (intros Hx1; rewrite <- Hx1 in Hp; done). apply Hin. apply elem_of_cons; by right. }
  specialize (IH' H0). cbn [e_pend] in IH'. lia.
Qed.
Lemma fold_remove_rest (L : list (N * N)) e : let e1 := fold_left (fun e x => eng_remove e x.1) L e in e_max e1 = e_max e /\ e_window e1 = e_window e.
Proof. revert e. induction L as [|x L IH]; intros e; [done|]. cbn [fold_left]. exact (IH (eng_remove e x.1)). Qed.
Lemma keys_size e : same_keys e -> size (e_time e) = size (e_pend e).
Proof.
  intros H. rewrite <- !size_dom. f_equal. apply set_eq. intros p. rewrite !elem_of_dom. split; apply H.
Qed.
Lemma cleanup_size e now order : same_keys e -> order ≡ₚ map_to_list (e_time e) -> size (e_pend (simple_cleanup e now order)) <= e_max e.
Proof.
  intros Hk Ho. unfold simple_cleanup. destruct (Nat.leb_spec (size (e_pend e)) (e_max e)); [done|]. cbn [e_pend].
  set (n := size (e_pend e) - e_max e / 2).
  assert (Hp : by_time order ≡ₚ map_to_list (e_time e)) by (by rewrite by_time_perm).
  assert (Hlen : length (by_time order) = size (e_pend e)) by (rewrite Hp, <- keys_size by done; done).
  assert (Hnd : NoDup (by_time order).*1) by (rewrite Hp; apply NoDup_fst_map_to_list).
  assert (Hin : forall p, p ∈ (by_time order).*1 -> is_Some (e_pend e !! p)).
  { intros p. rewrite Hp. intros ((q & t) & -> & Hq)%elem_of_list_fmap. apply elem_of_map_to_list in Hq. cbn. apply (proj2 (proj1 (Hk q))). eauto. }
  rewrite <- (take_drop n (by_time order)), fmap_app in Hnd. apply NoDup_app in Hnd as (Hnd & _).
  pose proof (fold_remove_size (take n (by_time order)) e Hnd) as Hsz. rewrite take_length, Hlen in Hsz.
  assert (e_max e / 2 <= e_max e) by (apply Nat.div_le_upper_bound; lia).
  enough (size (e_pend (fold_left (λ e0 x, eng_remove e0 x.1) (take n (by_time order)) e)) + n `min` size (e_pend e) = size (e_pend e)) by lia.
  apply Hsz. intros p Hp2. apply Hin. rewrite <- (take_drop n (by_time order)), fmap_app. apply elem_of_app. by left.
Qed.
Lemma expire_max L e : e_max (fold_left expire_one L e) = e_max e.
Proof. revert e. induction L as [|x L IH]; intros e; [done|]. cbn. rewrite IH. unfold expire_one. by destruct (e_pend e !! x). Qed.
Lemma expire_pend L e q : e_pend (fold_left expire_one L e) !! q = if decide (q ∈ L) then None else e_pend e !! q.
Proof.
  revert e. induction L as [|x L IH]; intros e; [done|]. cbn [fold_left]. rewrite IH. unfold expire_one.
  destruct (decide (q ∈ L)); [rewrite decide_True; [done|by apply elem_of_cons; right]|].
  destruct (decide (q = x)) as [->|Hne].
  - rewrite (decide_True (P := x ∈ x :: L)) by (apply elem_of_cons; by left). destruct (e_pend e !! x) eqn:E; [cbn; by rewrite lookup_delete|done].
  - rewrite (decide_False (P := q ∈ x :: L)) by (intros [?|?]%elem_of_cons; done). destruct (e_pend e !! x); [cbn; by rewrite lookup_delete_ne|done].
Qed.
Lemma expire_size L e : size (e_pend (fold_left expire_one L e)) <= size (e_pend e).
Proof.
  rewrite <- !size_dom. apply subseteq_size. intros q. rewrite !elem_of_dom. rewrite expire_pend. destruct (decide _); [intros [? ?]; done|done].
Qed.
Definition noconfig (o : eop) : Prop := match o with EConfig _ _ => False | _ => True end.
Lemma estep_size e o e1 r ok : same_keys e -> noconfig o -> (forall p d now order, o = EWrite p d now order -> order ≡ₚ map_to_list (<[p := now]> (e_time e))) ->
  estep e o = (e1, r, ok) -> size (e_pend e) <= e_max e -> size (e_pend e1) <= e_max e1 /\ e_max e1 = e_max e.
Proof.
  intros Hk Hnc Hor E Hs. destruct o as [p d now order|now extra|w m|now]; cbn in E; [| |done|].
  - destruct (coalesce e p d now order) as [e2 r2] eqn:Ec. assert (e2 = e1) by congruence. subst. unfold coalesce in Ec. destruct d as [|x d]; [assert (e1 = e) by congruence; by subst|].
    destruct (e_pend e !! p) eqn:Ep.
    + pose proof (f_equal fst Ec) as E1. cbn [fst] in E1. subst e1. cbn [e_pend e_max]. rewrite map_size_insert, Ep. done.
    + pose proof (f_equal fst Ec) as E1. cbn [fst] in E1. subst e1. cbn [e_max e_pend].
      match goal with |- context [simple_cleanup ?x _ _] => assert (Hk2 : same_keys x) by (by apply insert_keys); pose proof (cleanup_size x now order Hk2 (Hor _ _ _ _ eq_refl)) as Hc; set (ex := x) in * end.
      destruct (Nat.ltb_spec (e_max e) (size (<[p := x :: d]> (e_pend e)))); [|done].
      assert (e_max (simple_cleanup ex now order) = e_max ex) by (unfold simple_cleanup; destruct (_ <=? _); [done|cbn [e_max]; exact (proj1 (fold_remove_rest _ ex))]).
      split; [lia|done].
  - destruct (cleanup_expired e now extra) as [e2 ok2] eqn:Ec. assert (e2 = e1) by congruence. subst. unfold cleanup_expired in Ec.
    destruct (_ <? _)%N; [assert (e1 = e) by congruence; by subst|]. pose proof (f_equal fst Ec) as E1. cbn [fst] in E1. subst e1. cbn [e_pend e_max]. rewrite expire_max. split; [|done].
    etransitivity; [apply expire_size|done].
  - assert (e1 = mkEng ∅ ∅ ∅ (e_window e) (e_max e) now) by congruence. subst. cbn. rewrite map_size_empty. split; [lia|done].
Qed.
Lemma estep_latest e o e1 r ok m : estep e o = (e1, r, ok) -> e_pend e ⊆ m -> e_pend e1 ⊆ last_write m (o, r, ok) /\
  (match o with EWrite p d _ _ => r = match d with [] => None | _ => Some d end | _ => r = None end).
Proof.
  intros E Hs. destruct o as [p d now order|now extra|w m2|now]; cbn in E.
  - destruct (coalesce e p d now order) as [e2 r2] eqn:Ec. assert (e2 = e1) by congruence. assert (r2 = r) by congruence. subst. unfold coalesce in Ec. destruct d as [|x d]; [assert (e1 = e) by congruence; assert (r = None) by congruence; by subst|].
    cbn [last_write fst]. destruct (e_pend e !! p) eqn:Ep.
    + pose proof (f_equal fst Ec) as E1. cbn [fst] in E1. subst e1. cbn [e_pend]. split; [by apply insert_mono|congruence].
    + pose proof (f_equal fst Ec) as E1. cbn [fst] in E1. subst e1. cbn [e_max e_pend]. split; [|congruence].
      assert (Hi : <[p := x :: d]> (e_pend e) ⊆ <[p := x :: d]> m) by (by apply insert_mono).
      destruct (_ <? _); [|done]. unfold simple_cleanup. cbn [e_pend e_max]. destruct (_ <=? _); [done|]. cbn [e_pend].
      apply map_subseteq_spec. intros q y. rewrite fold_remove_pend. destruct (decide _); [done|]. cbn [e_pend]. intros Hq. eapply lookup_weaken; done.
  - destruct (cleanup_expired e now extra) as [e2 ok2] eqn:Ec. assert (e2 = e1) by congruence. subst. split; [|congruence]. unfold cleanup_expired in Ec. cbn.
    destruct (_ <? _)%N; [assert (e1 = e) by congruence; by subst|]. pose proof (f_equal fst Ec) as E1. cbn [fst] in E1. subst e1. cbn [e_pend].
    apply map_subseteq_spec. intros q y. rewrite expire_pend. destruct (decide _); [done|]. intros Hq. eapply lookup_weaken; done.
  - assert (e1 = mkEng (e_pend e) (e_time e) (e_freq e) w m2 (e_last e)) by congruence. subst. split; [done|congruence].
  - assert (e1 = mkEng ∅ ∅ ∅ (e_window e) (e_max e) now) by congruence. subst. cbn. split; [apply map_empty_subseteq|congruence].
Qed.

(** ** Ranges *)
Lemma nle_total : Total N.le.
Proof. intros x y. lia. Qed.
Lemma nle_trans : Transitive N.le.
Proof. intros x y z. lia. Qed.
Lemma sorted_strict l : NoDup l -> StronglySorted N.lt (merge_sort N.le l).
Proof.
  intros Hnd. assert (Hs : StronglySorted N.le (merge_sort N.le l)) by (pose proof nle_total; pose proof nle_trans; apply (StronglySorted_merge_sort N.le)).
  assert (Hn : NoDup (merge_sort N.le l)) by (by rewrite merge_sort_Permutation). revert Hs Hn. generalize (merge_sort N.le l). clear.
  induction l as [|x l IH]; intros Hs Hn; [constructor|]. apply StronglySorted_inv in Hs as [Hs Hx]. apply NoDup_cons in Hn as [Hn1 Hn2]. constructor; [auto|].
  rewrite Forall_forall in *. intros y Hy. specialize (Hx y Hy). assert (x <> y) by (intros ->; done). lia.
Qed.
Lemma ranges_spec pend start stop sz l : (start <= stop)%N -> StronglySorted N.lt (stop :: l) ->
  let R := ranges_from pend start stop sz l in
  (forall p, (exists r, r ∈ R /\ covers r p) <-> (start <= p <= stop)%N \/ p ∈ l) /\
  StronglySorted apart R /\ Forall (fun r => (r_start r <= r_end r)%N) R /\ (exists r R', R = r :: R' /\ r_start r = start).
Proof.
  revert start stop sz. induction l as [|p l IH]; intros start stop sz Hle Hs; cbn [ranges_from].
  - rewrite (proj2 (N.leb_le _ _) Hle). cbn zeta. split; [|split; [|split]].
    + intros p. split.
      * intros (r & Hr & Hc). apply elem_of_list_singleton in Hr. subst r. by left.
      * intros [Hc|Hc]; [|by apply elem_of_nil in Hc]. exists (mkRange start stop sz). split; [by apply elem_of_list_singleton|done].
    + repeat constructor.
    + by repeat constructor.
    + eauto.
  - apply StronglySorted_inv in Hs as [Hs Hx]. apply Forall_cons in Hx as [Hp Hx]. destruct (N.eqb_spec p (stop + 1)) as [->|Hne].
    + destruct (IH start (stop + 1)%N (sz + page_bytes pend (stop + 1))%N) as (I1 & I2 & I3); [lia|done|]. split; [|split; [done|done]].
      intros q. rewrite I1, elem_of_cons. split; [|].
      * intros [?|?]; [|by right; right]. destruct (decide (q = stop + 1)%N); [by right; left|left; lia].
      * intros [?|[->|?]]; [left; lia|left; lia|by right].
    + destruct (IH p p (page_bytes pend p)) as (I1 & I2 & I3 & I4); [lia|done|]. cbn zeta. split; [|split; [|split]].
      * intros q. rewrite elem_of_cons. split.
        -- intros (r & [->|Hr]%elem_of_cons & Hc); [by left|]. right. destruct (proj1 (I1 q) (ex_intro _ r (conj Hr Hc))); [left; lia|by right].
        -- intros [Hc|Hc].
           ++ exists (mkRange start stop sz). split; [apply elem_of_cons; by left|done].
           ++ destruct (proj2 (I1 q)) as (r & Hr & Hc'); [destruct Hc as [->|Hc]; [left; lia|by right]|]. exists r. split; [by apply elem_of_cons; right|done].
      * constructor; [done|]. apply Forall_forall. intros r Hr. unfold apart. cbn.
        pose proof (proj1 (Forall_forall _ _) I3 _ Hr) as Hrr. cbn in Hrr.
        assert (Hcov : covers r (r_start r)) by (split; lia). destruct (proj1 (I1 _) (ex_intro _ r (conj Hr Hcov))) as [?|Hin]; [lia|].
        apply StronglySorted_inv in Hs as [_ Hs]. rewrite Forall_forall in Hs. apply Hs in Hin. lia.
      * by constructor.
      * eauto.
Qed.
Lemma build_spec pages pend : NoDup pages ->
  (forall p, (exists r, r ∈ build_ranges pages pend /\ covers r p) <-> p ∈ pages) /\
  StronglySorted apart (build_ranges pages pend) /\ Forall (fun r => (r_start r <= r_end r)%N) (build_ranges pages pend).
Proof.
  intros Hnd. unfold build_ranges. pose proof (sorted_strict _ Hnd) as Hs. pose proof (merge_sort_Permutation N.le pages) as Hp.
  destruct (merge_sort N.le pages) as [|p l] eqn:E.
  - apply Permutation_nil_l in Hp || (symmetry in Hp; apply Permutation_nil_r in Hp). subst. split; [|repeat constructor]. intros p. split; [intros (r & Hr & _); by apply elem_of_nil in Hr|intros Hr; by apply elem_of_nil in Hr].
  - destruct (ranges_spec pend p p (page_bytes pend p) l) as (H1 & H2 & H3 & _); [lia|done|]. split; [|done].
    intros q. rewrite H1, <- Hp, elem_of_cons. split; [intros [?|?]; [left; lia|by right]|intros [->|?]; [left; lia|by right]].
Qed.
(** Bytes per range. *)
Lemma fold_add (f : nat -> N) l a : fold_right (fun k s => f k + s)%N a l = (fold_right (fun k s => f k + s)%N 0%N l + a)%N.
Proof. induction l as [|x l IH]; cbn; [lia|]. rewrite IH. lia. Qed.
Lemma ranges_bytes pend start stop sz l : (start <= stop)%N -> sz = bytes_in pend (mkRange start stop sz) ->
  Forall (fun r => r_size r = bytes_in pend r) (ranges_from pend start stop sz l).
Proof.
  revert start stop sz. induction l as [|p l IH]; intros start stop sz Hle Hsz; cbn [ranges_from].
  - destruct (_ <=? _)%N; repeat constructor. done.
  - assert (Hone : page_bytes pend p = bytes_in pend (mkRange p p (page_bytes pend p))).
    { unfold bytes_in, page_bytes. cbn [r_start r_end]. replace (N.to_nat (p + 1 - p)) with 1 by lia. cbn. replace (p + 0)%N with p by lia. lia. }
    destruct (N.eqb_spec p (stop + 1)) as [->|Hne].
    + apply IH; [lia|]. unfold bytes_in, page_bytes in *. cbn [r_start r_end] in *. rewrite Hsz at 1.
      replace (N.to_nat (stop + 1 + 1 - start)) with (S (N.to_nat (stop + 1 - start))) by lia. rewrite seq_S, fold_right_app. cbn [fold_right].
      rewrite (fold_add (fun k => match pend !! (start + N.of_nat k)%N with Some d => N.of_nat (length d) | None => 4096%N end) _ (_ + 0)%N). rewrite Nat.add_0_l. replace (start + N.of_nat (N.to_nat (stop + 1 - start)))%N with (stop + 1)%N by lia. lia.
    + constructor; [done|]. apply IH; [lia|done].
Qed.
Lemma build_bytes pages pend : Forall (fun r => r_size r = bytes_in pend r) (build_ranges pages pend).
Proof.
  unfold build_ranges. destruct (merge_sort N.le pages) as [|p l]; [constructor|]. apply ranges_bytes; [lia|].
  unfold bytes_in, page_bytes. cbn [r_start r_end]. replace (N.to_nat (p + 1 - p)) with 1 by lia. cbn. replace (p + 0)%N with p by lia. lia.
Qed.
Lemma valid_apart l : StronglySorted apart l -> valid_ranges l = true.
Proof.
  destruct l as [|r l]; [done|]. cbn. revert r. induction l as [|s l IH]; intros r Hs; [done|]. cbn. apply StronglySorted_inv in Hs as [Hs Hr].
  apply Forall_cons in Hr as [Hr _]. unfold apart in Hr. destruct (N.leb_spec (r_start s) (r_end r)); [lia|]. by apply IH.
Qed.
(** Gaps. *)
Lemma gaps_spec r l : StronglySorted apart (r :: l) -> Forall (fun r => (r_start r <= r_end r)%N) (r :: l) ->
  (forall p, (exists a b s, (a, b, s) ∈ gaps_from r l /\ (a <= p <= b)%N) <->
     (r_end r < p)%N /\ (exists s, s ∈ l /\ (p < r_start s)%N) /\ ~ exists s, s ∈ l /\ covers s p) /\
  length (gaps_from r l) = length l /\
  (forall k a b s, gaps_from r l !! k = Some (a, b, s) -> exists x y, (r :: l) !! k = Some x /\ l !! k = Some y /\ a = (r_end x + 1)%N /\ (b + 1)%N = r_start y /\ (a <= b)%N /\ s = ((b - a + 1) * 4096 mod 2 ^ 64)%N).
Proof.
  revert r. induction l as [|s l IH]; intros r Hs Hf; cbn [gaps_from].
  - split; [|split; [done|]].
    + intros p. split; [intros (a & b & s & Hin & _); by apply elem_of_nil in Hin|]. intros (_ & (s & Hs' & _) & _). by apply elem_of_nil in Hs'.
    + intros k a b s Hk. by rewrite lookup_nil in Hk.
  - apply StronglySorted_inv in Hs as [Hs Hr]. apply Forall_cons in Hf as [Hf1 Hf]. pose proof Hr as Hr0. apply Forall_cons in Hr as [Hr _]. unfold apart in Hr.
    destruct (IH s Hs Hf) as (I1 & I2 & I3). apply Forall_cons in Hf as [Hf2 Hf]. apply StronglySorted_inv in Hs as [Hs Hsl].
    rewrite (proj2 (N.ltb_lt _ _) Hr). cbn [app]. split; [|split].
    + intros p. split.
      * intros (a & b & z & [E|Hin]%elem_of_cons & Hab).
        -- assert (a = r_end r + 1)%N by congruence. assert (b = r_start s - 1)%N by congruence. subst. split; [lia|]. split; [exists s; split; [apply elem_of_cons; by left|lia]|].
           intros (s' & [->|Hs']%elem_of_cons & Hc); unfold covers in Hc; [lia|]. rewrite Forall_forall in Hsl. apply Hsl in Hs'. unfold apart in Hs'. lia.
        -- destruct (proj1 (I1 p)) as (H1 & (s2 & H2 & H3) & H4); [eauto 10|]. split; [lia|]. split; [exists s2; split; [by apply elem_of_cons; right|done]|].
           intros (s' & [->|Hs']%elem_of_cons & Hc); [unfold covers in Hc; lia|]. apply H4. eauto.
      * intros (H1 & (s2 & H2 & H3) & H4). destruct (decide (p < r_start s)%N) as [Hlt|Hge].
        -- eexists _, _, _. split; [apply elem_of_cons; left; reflexivity|]. lia.
        -- destruct (decide (p <= r_end s)%N) as [Hle|Hgt].
           ++ exfalso. apply H4. exists s. split; [apply elem_of_cons; by left|unfold covers; lia].
           ++ apply elem_of_cons in H2 as [->|H2]; [lia|]. destruct (proj2 (I1 p)) as (a & b & z & Hin & Hab).
              { split; [lia|]. split; [eauto|]. intros (s' & Hs' & Hc). apply H4. exists s'. split; [by apply elem_of_cons; right|done]. }
              exists a, b, z. split; [by apply elem_of_cons; right|done].
    + cbn. by rewrite I2.
    + intros [|k] a b z Hk.
      * assert (Hk' : Some ((r_end r + 1)%N, (r_start s - 1)%N, ((r_start s - 1 - (r_end r + 1) + 1) * 4096 mod 2 ^ 64)%N) = Some (a, b, z)) by exact Hk. clear Hk. assert (a = r_end r + 1)%N by congruence. assert (b = r_start s - 1)%N by congruence. assert (z = ((r_start s - 1 - (r_end r + 1) + 1) * 4096 mod 2 ^ 64)%N) by congruence. subst.
        exists r, s. split; [done|]. split; [done|]. split; [done|]. split; [lia|]. split; [lia|done].
      * apply I3 in Hk as (x & y & Hx & Hy & ?). exists x, y. done.
Qed.

(** Adjacent pages. *)
Lemma adjacent_spec e p q : (p < 2 ^ 64)%N -> (forall k, is_Some (e_pend e !! k) -> k < 2 ^ 64)%N ->
  (q ∈ find_adjacent e p <-> is_Some (e_pend e !! q) /\ q <> p /\ (q <= p + 4)%N /\ (p <= q + 4)%N).
Proof.
  intros Hp Hk. unfold find_adjacent. rewrite merge_sort_Permutation. match goal with |- context [concat ?l] => change (concat l) with (mjoin l) end. rewrite elem_of_list_join. split.
  - intros (l & Hq & Hl). apply elem_of_list_fmap in Hl as (k & -> & Hk4). rewrite !elem_of_cons, elem_of_nil in Hk4.
    apply elem_of_app in Hq as [Hq|Hq]; case_decide as Hd; try (by apply elem_of_nil in Hq); apply elem_of_list_singleton in Hq; destruct Hd as [Hd1 Hd2]; subst q; (split; [done|]); lia.
  - intros (Hs & Hne & Hq1 & Hq2). pose proof (Hk _ Hs) as Hk64. destruct (decide (q < p)%N) as [Hlt|Hge].
    + eexists. split; [|apply elem_of_list_fmap; exists (p - q)%N; split; [reflexivity|]].
      * apply elem_of_app. left. rewrite decide_True; [apply elem_of_list_singleton; lia|]. split; [lia|]. replace (p - (p - q))%N with q by lia. done.
      * rewrite !elem_of_cons. lia.
    + eexists. split; [|apply elem_of_list_fmap; exists (q - p)%N; split; [reflexivity|]].
      * apply elem_of_app. right. rewrite decide_True; [apply elem_of_list_singleton; lia|]. replace (p + (q - p))%N with q by lia. done.
      * rewrite !elem_of_cons. lia.
Qed.
Lemma near_nodup (P Q : N -> Prop) (dP : forall k, Decision (P k)) (dQ : forall k, Decision (Q k)) p ks : (forall k, P k -> k <= p)%N -> Forall (fun k => 0 < k)%N ks -> NoDup ks ->
  NoDup (concat ((fun k => (if dP k then [p - k] else []) ++ (if dQ k then [p + k] else []))%N <$> ks)).
Proof.
  intros HP Hf Hnd. induction ks as [|k ks IH]; [apply NoDup_nil; done|]. apply Forall_cons in Hf as [Hk Hf]. apply NoDup_cons in Hnd as [Hn Hnd]. cbn [fmap list_fmap concat].
  assert (Hrest : forall x, x ∈ concat ((fun k => (if dP k then [p - k] else []) ++ (if dQ k then [p + k] else []))%N <$> ks) -> exists j, j ∈ ks /\ (0 < j)%N /\ ((j <= p)%N /\ x = (p - j)%N \/ x = (p + j)%N)).
  { clear IH Hnd Hn. induction ks as [|j ks IH]; [intros x Hx; by apply elem_of_nil in Hx|]. apply Forall_cons in Hf as [Hj Hf]. cbn [fmap list_fmap concat]. intros x [[Hx|Hx]%elem_of_app|Hx]%elem_of_app.
    - destruct (dP j) as [Hp|]; [|by apply elem_of_nil in Hx]. apply elem_of_list_singleton in Hx. apply HP in Hp. exists j. split; [apply elem_of_cons; by left|]. auto.
    - destruct (dQ j); [|by apply elem_of_nil in Hx]. apply elem_of_list_singleton in Hx. exists j. split; [apply elem_of_cons; by left|]. auto.
    - destruct (IH Hf x Hx) as (i & ? & ?). exists i. split; [by apply elem_of_cons; right|done]. }
  apply NoDup_app. split; [|split; [|by apply IH]].
  - destruct (dP k), (dQ k); cbn; repeat (apply NoDup_cons; split; [rewrite ?elem_of_cons, ?elem_of_nil; lia|]); apply NoDup_nil; exact I.
  - intros x Hx Hx2. apply Hrest in Hx2 as (j & Hj & Hj0 & Hj2). assert (j <> k) by (intros ->; done). apply elem_of_app in Hx as [Hx|Hx].
    + destruct (dP k) as [Hp|]; [|by apply elem_of_nil in Hx]. apply elem_of_list_singleton in Hx. apply HP in Hp. lia.
    + destruct (dQ k); [|by apply elem_of_nil in Hx]. apply elem_of_list_singleton in Hx. lia.
Qed.
Lemma adjacent_sorted e p : StronglySorted N.lt (find_adjacent e p).
Proof.
  apply sorted_strict. apply near_nodup.
  - intros k [? _]. done.
  - repeat constructor.
  - apply (bool_decide_unpack _). vm_compute. exact I.
Qed.

(** Alignment. *)
Lemma aligned_spec n k : let a := aligned_size n k in (n <= a)%N /\ (a < n + 2 ^ k)%N /\ (a mod 2 ^ k = 0)%N.
Proof.
  cbn. unfold aligned_size. assert (Hk : (2 ^ k - 1 = N.ones k)%N) by (rewrite N.ones_equiv; lia).
  assert (Hpos : (2 ^ k <> 0)%N) by (apply N.pow_nonzero; lia).
  rewrite Hk, N.ldiff_ones_r, N.shiftl_mul_pow2, N.shiftr_div_pow2.
  pose proof (N.div_mod (n + 2 ^ k - 1) (2 ^ k) Hpos) as Hd. pose proof (N.mod_lt (n + 2 ^ k - 1) (2 ^ k) Hpos) as Hl.
  rewrite N.mod_mul by done. clear Hk. revert Hd Hl Hpos. generalize (2 ^ k)%N. intros m. generalize ((n + m - 1) / m)%N ((n + m - 1) mod m)%N. intros q r Hd Hl Hpos.
  rewrite (N.mul_comm q m). revert Hd. generalize (m * q)%N. intros x Hd. lia.
Qed.

(** The page just written stays when its time is the latest. *)
Lemma by_time_insert_sorted x l : StronglySorted (fun a b : N * N => a.2 <= b.2)%N l -> StronglySorted (fun a b : N * N => a.2 <= b.2)%N (by_time_insert x l).
Proof.
  induction l as [|y l IH]; intros Hs; cbn; [repeat constructor|]. pose proof Hs as Hs0. apply StronglySorted_inv in Hs as [Hs Hy]. destruct (N.leb_spec x.2 y.2).
  - constructor; [done|]. constructor; [done|]. eapply Forall_impl; [exact Hy|]. cbn. intros a Ha. lia.
  - constructor; [auto|]. apply Forall_forall. intros a Ha. rewrite by_time_insert_perm in Ha. apply elem_of_cons in Ha as [->|Ha]; [lia|]. by apply (proj1 (Forall_forall _ _) Hy).
Qed.
Lemma by_time_sorted l : StronglySorted (fun a b : N * N => a.2 <= b.2)%N (by_time l).
Proof. induction l; cbn; [constructor|by apply by_time_insert_sorted]. Qed.
Lemma coalesce_kept e p d now order e1 r : same_keys e -> order ≡ₚ map_to_list (<[p := now]> (e_time e)) -> 2 <= e_max e ->
  (forall q t, q <> p -> e_time e !! q = Some t -> t < now)%N -> d <> [] -> coalesce e p d now order = (e1, r) -> e_pend e1 !! p = Some d.
Proof.
  intros Hk Ho Hm Ht Hd E. unfold coalesce in E. destruct d as [|x d]; [done|]. destruct (e_pend e !! p) eqn:Ep.
  - pose proof (f_equal fst E) as E1. cbn [fst] in E1. subst e1. cbn [e_pend]. apply lookup_insert.
  - pose proof (f_equal fst E) as E1. cbn [fst] in E1. subst e1. cbn [e_max e_pend]. destruct (_ <? _); [|apply lookup_insert].
    assert (Hk2 : same_keys (mkEng (<[p := x :: d]> (e_pend e)) (<[p := now]> (e_time e)) (<[p := 1%N]> (e_freq e)) (e_window e) (e_max e) (e_last e))) by (by apply insert_keys).
    pose proof (keys_size _ Hk2) as Hsz. cbn [e_time e_pend] in Hsz.
    unfold simple_cleanup. cbn [e_pend e_max]. destruct (Nat.leb_spec (size (<[p:=x :: d]> (e_pend e))) (e_max e)); [apply lookup_insert|]. cbn [e_pend].
    rewrite fold_remove_pend. cbn [e_pend]. set (n := size (<[p:=x :: d]> (e_pend e)) - e_max e / 2).
    assert (1 <= e_max e / 2) by (apply Nat.div_le_lower_bound; lia).
    rewrite decide_False; [apply lookup_insert|]. intros Hin.
    assert (Hp : by_time order ≡ₚ map_to_list (<[p := now]> (e_time e))) by (by rewrite by_time_perm).
    assert (Hlen : length (by_time order) = size (<[p := x :: d]> (e_pend e))) by (rewrite Hp, <- Hsz; done).
    assert (Hnd : NoDup (by_time order).*1) by (rewrite Hp; apply NoDup_fst_map_to_list).
    assert (Hdr : drop n (by_time order) <> []) by (intros Ez; apply (f_equal length) in Ez; rewrite drop_length, Hlen in Ez; cbn in Ez; lia).
    destruct (drop n (by_time order)) as [|y R] eqn:EdR; [done|].
    pose proof (by_time_sorted order) as Hs. rewrite <- (take_drop n (by_time order)), EdR in Hs, Hnd.
    apply elem_of_list_fmap in Hin as ((p' & t') & Hp1 & Hin). cbn in Hp1. subst p'.
    assert (t' = now).
    { assert (Hin2 : (p, t') ∈ by_time order) by (rewrite <- (take_drop n (by_time order)); apply elem_of_app; by left). rewrite Hp in Hin2. apply elem_of_map_to_list in Hin2. rewrite lookup_insert in Hin2. congruence. }
    subst t'. rewrite fmap_app in Hnd. apply NoDup_app in Hnd as (_ & Hdis & _).
    assert (Hy1 : y.1 <> p).
    { intros Ey. apply (Hdis p); [apply elem_of_list_fmap; exists (p, now); done|]. cbn. rewrite Ey. apply elem_of_cons. by left. }
    assert (Hy : y ∈ by_time order) by (rewrite <- (take_drop n (by_time order)), EdR; apply elem_of_app; right; apply elem_of_cons; by left).
    rewrite Hp in Hy. destruct y as [q t]. apply elem_of_map_to_list in Hy. rewrite lookup_insert_ne in Hy by done. apply Ht in Hy; [|done].
    apply elem_of_list_split in Hin as (l1 & l2 & El). rewrite El, <- app_assoc in Hs. cbn [app] in Hs. clear - Hs Hy.
    induction l1 as [|z l1 IH]; cbn in Hs; apply StronglySorted_inv in Hs as [Hs Hz].
    + apply Forall_app in Hz as [_ Hz]. apply Forall_cons in Hz as [Hz _]. cbn in Hz. lia.
    + auto.
Qed.
