(** * The version chain of one row *)
From stdpp Require Import gmap list.
From Coq Require Import NArith Lia ZifyBool ZifyNat ZifyN.
From Verif Require Import WatermarkModel MvccModel MvccSpec.
Local Open Scope N_scope.

(** What readers find below the page: the undo logs reached from a link, each with the
    transaction that owns it.  The chain also ends where a transaction has been forgotten. *)
Inductive chain (txs : gmap N txn) (n : N) : option link -> list (N * ulog) -> Prop :=
| ch_end : chain txs n None []
| ch_cut l : txs !! l.1 = None -> l.1 < n -> chain txs n (Some l) []
| ch_log l g L : get_log txs l = Some g -> chain txs n (prev_link g) L -> chain txs n (Some l) ((l.1, g) :: L).

Definition ver (p : N * ulog) : option N * option tuple := (u_ts p.2, Some (u_tuple p.2)).
Definition topv (m : meta) (y : tuple) : option N * option tuple := (m_ts m, if m_del m then None else Some y).

(** The newest version with a timestamp up to [r]. *)
Fixpoint look (r : N) (l : list (option N * option tuple)) : option tuple :=
  match l with
  | [] => None
  | (Some c, v) :: l => if N.leb c r then v else look r l
  | (None, _) :: l => look r l
  end.

Definition has_ts (b : N) (l : list (option N * option tuple)) : Prop := exists c v, (Some c, v) ∈ l /\ c <= b.

Lemma look_app r l1 l2 : has_ts r l1 -> look r (l1 ++ l2) = look r l1.
Proof.
  intros (c & v & Hin & Hc). induction l1 as [|[o v1] l1 IH]; [by apply elem_of_nil in Hin|]. cbn.
  apply elem_of_cons in Hin as [E|Hin].
  - injection E as <- <-. by replace (c <=? r) with true by lia.
  - destruct o as [c1|]; [destruct (c1 <=? r); [done|]|]; auto.
Qed.

Lemma has_ts_mono b b' l l' : has_ts b l -> b <= b' -> l ⊆ l' -> has_ts b' l'.
Proof. intros (c & v & H & Hc) Hb Hs. exists c, v. split; [auto|lia]. Qed.

(** A transaction may stand in a row's chain only if it is old, and has written the row if it
    is still running.  [wr] gives each running transaction's writes to the row. *)
Definition fine (wr : N -> option (list (option tuple))) (n u : N) : Prop := u < n /\ wr u <> Some [].
Definition nobody (wr : N -> option (list (option tuple))) : Prop := forall u, wr u = None \/ wr u = Some [].

(** A link that may be cut comes below a version old enough for whoever is left then. *)
Definition covered (txs : gmap N txn) (top : option N * option tuple) (L : list (N * ulog)) : Prop :=
  forall L1 u g L2 x, L = L1 ++ (u, g) :: L2 -> txs !! u = Some x ->
    match x_state x with
    | Running => True
    | Committed => has_ts (x_commit x) (top :: map ver L1)
    | Aborted => has_ts (x_read x) (top :: map ver L1)
    end.

Definition regular (m : meta) (l : option link) : Prop :=
  l = match m_idx m with Some i => Some (m_creator m, i) | None => None end.

Definition top_active (wr : N -> option (list (option tuple))) (k : nat) (l : option link) (m : meta) (y : tuple)
    (vs : list (N * option tuple)) (L : list (N * ulog)) : Prop :=
  exists ws, wr (m_creator m) = Some ((topv m y).2 :: ws) /\ m_ts m = None /\
    (forall u, u <> m_creator m -> wr u = None \/ wr u = Some []) /\ regular m l /\ (length L <= k)%nat /\
    (ws = [] -> (l = None /\ vs = []) \/
       exists u g L0 c vs0, L = (u, g) :: L0 /\ u = m_creator m /\ u_ts g = Some c /\ vs = (c, Some (u_tuple g)) :: vs0).

Definition restored (txs : gmap N txn) (wr : N -> option (list (option tuple))) (n mark : N) (l : option link)
    (m : meta) (y : tuple) (c : N) : Prop :=
  exists i, m_idx m = Some i /\ m_del m = false /\
    ((exists x g, txs !! m_creator m = Some x /\ x_state x = Aborted /\ c <= x_read x /\ x_logs x !! i = Some g /\
        u_tuple g = y /\ u_ts g = Some c /\ prev_link g = l /\ fine wr n (u_ptxn g)) \/
     (txs !! m_creator m = None /\ c <= mark)).

Definition top_committed (txs : gmap N txn) (wr : N -> option (list (option tuple))) (n mark : N) (k : nat)
    (l : option link) (m : meta) (y : tuple) (vs : list (N * option tuple)) (L : list (N * ulog)) : Prop :=
  exists c vs0, m_ts m = Some c /\ vs = (c, (topv m y).2) :: vs0 /\ nobody wr /\
    ((regular m l /\ (length L <= k)%nat) \/ (restored txs wr n mark l m y c /\ (S (length L) <= k)%nat)).

Definition top_dead (wr : N -> option (list (option tuple))) (l : option link) (m : meta)
    (vs : list (N * option tuple)) : Prop :=
  m_del m = true /\ m_ts m = None /\ l = None /\ vs = [] /\ nobody wr.

Definition row_ok (txs : gmap N txn) (wr : N -> option (list (option tuple))) (n mark : N) (k : nat)
    (l : option link) (m : meta) (y : tuple) (vs : list (N * option tuple)) : Prop :=
  exists L, chain txs n l L /\
    fine wr n (m_creator m) /\ Forall (fun p => fine wr n p.1 /\ fine wr n (u_ptxn p.2)) L /\
    (forall r, mark <= r -> look r (topv m y :: map ver L) = as_of r vs) /\
    covered txs (topv m y) L /\
    (top_active wr k l m y vs L \/ top_committed txs wr n mark k l m y vs L \/ top_dead wr l m vs).

(** ** Reading *)
Fixpoint pick (t r : N) (L : list (N * ulog)) : option tuple :=
  match L with
  | [] => None
  | (_, g) :: L =>
      if N.eqb (u_ptxn g) t then Some (u_tuple g)
      else match u_ts g with
           | Some c => if N.leb c r then Some (u_tuple g) else pick t r L
           | None => pick t r L
           end
  end.

Lemma walk_pick txs n t r l L : chain txs n l L -> forall fuel, (length L < fuel)%nat -> walk fuel txs t r l = pick t r L.
Proof.
  induction 1 as [|l Hn _|l g L Hg Hc IH]; intros [|fuel] Hf; cbn in Hf; try lia; cbn [walk].
  - done.
  - unfold get_log. by rewrite Hn.
  - rewrite Hg. cbn [pick]. unfold visibility. cbn [m_creator m_ts m_del].
    destruct (N.eqb (u_ptxn g) t); [done|]. destruct (u_ts g) as [c|]; [|apply IH; lia].
    replace (c <=? r) with (negb (r <? c)) by lia. destruct (r <? c); [apply IH; lia|done].
Qed.

Lemma pick_look wr n t r L : wr t = Some [] -> Forall (fun p => fine wr n p.1 /\ fine wr n (u_ptxn p.2)) L ->
  pick t r L = look r (map ver L).
Proof.
  intros Ht. induction 1 as [|[u g] L [_ [_ Hg]] HL IH]; [done|]. cbn in *.
  destruct (N.eqb_spec (u_ptxn g) t) as [E|_]; [congruence|]. by destruct (u_ts g) as [c|]; [destruct (c <=? r)|].
Qed.

(** What a transaction at a snapshot level finds in a good row. *)
Lemma row_read txs wr n mark k st t r rd m y vs ws :
  row_ok txs wr n mark k (lk st !! rd) m y vs -> tx st = txs -> nlogs st = k ->
  wr t = Some ws -> mark <= r ->
  get_visible st t r rd (m, y) = match ws with v :: _ => v | [] => as_of r vs end.
Proof.
  intros (L & Hc & Hf & HF & Hl & _ & Ht) <- <- Hw Hr. unfold get_visible. cbn [fst snd].
  assert (HL : (length L < S (nlogs st))%nat).
  { destruct Ht as [(? & _ & _ & _ & _ & ? & _)|[(? & ? & _ & _ & _ & [[_ ?]|[_ ?]])|(_ & _ & E & _)]]; try lia.
    rewrite E in Hc. inversion Hc; subst; cbn; lia. }
  rewrite (walk_pick _ _ _ _ _ _ Hc _ HL). specialize (Hl r Hr). cbn [look topv] in Hl.
  unfold visibility. destruct (N.eqb_spec (m_creator m) t) as [E|Hne].
  - destruct Ht as [(ws0 & Hw0 & _)|[(? & ? & _ & _ & Nb & _)|(_ & _ & _ & _ & Nb)]].
    + rewrite E, Hw in Hw0. injection Hw0 as ->. cbn. by destruct (m_del m).
    + destruct Hf as [_ Hf]. rewrite E in Hf. destruct (Nb t); congruence.
    + destruct Hf as [_ Hf]. rewrite E in Hf. destruct (Nb t); congruence.
  - assert (ws = []) as ->.
    { destruct Ht as [(ws0 & _ & _ & O & _)|[(? & ? & _ & _ & Nb & _)|(_ & _ & _ & _ & Nb)]].
      - destruct (O t ltac:(congruence)); congruence.
      - destruct (Nb t); congruence.
      - destruct (Nb t); congruence. }
    rewrite (pick_look wr n t r L Hw HF). destruct (m_ts m) as [c|]; [|done].
    replace (r <? c) with (negb (c <=? r)) by lia. destruct (c <=? r); [|done]. cbn. by destruct (m_del m).
Qed.

(** ** Rows that an operation does not touch *)
Lemma chain_frame txs txs' n n' l L (t : N) :
  chain txs n l L -> (forall u, u <> t -> txs' !! u = txs !! u) ->
  (forall p, p ∈ L -> p.1 <> t) -> (n <= t \/ txs !! t <> None) -> n <= n' -> chain txs' n' l L.
Proof.
  intros Hc Ht HL Hn Hnn. induction Hc as [|l Hl Hln|l g L Hg Hc IH].
  - constructor.
  - apply ch_cut; [|lia]. rewrite Ht; [done|]. intros E. destruct Hn as [Hn|Hn]; [lia|]. by rewrite <- E in Hn.
  - apply ch_log.
    + unfold get_log in *. rewrite Ht; [done|]. apply (HL (l.1, g)). apply elem_of_cons. by left.
    + apply IH. intros p Hp. apply HL. apply elem_of_cons. by right.
Qed.

Lemma row_frame txs txs' wr wr' n n' mark mark' k k' l m y vs t :
  row_ok txs wr n mark k l m y vs ->
  (forall u, u <> t -> txs' !! u = txs !! u) -> (forall u, u <> t -> wr' u = wr u) ->
  (n <= t \/ (wr t = Some [] /\ txs !! t <> None)) -> (wr' t = None \/ wr' t = Some []) ->
  n <= n' -> mark <= mark' -> (k <= k')%nat ->
  row_ok txs' wr' n' mark' k' l m y vs.
Proof.
  intros (L & Hc & Hf & HF & Hl & Hcov & Ht) Htx Hwr Hold Hnew Hn Hm Hk.
  assert (NF : forall u, fine wr n u -> u <> t).
  { intros u [Hu Hw] ->. destruct Hold as [?|[? _]]; [lia|done]. }
  assert (FF : forall u, fine wr n u -> fine wr' n' u).
  { intros u F. pose proof (NF u F). destruct F as [Hu Hw]. split; [lia|]. by rewrite Hwr. }
  assert (NN : nobody wr -> nobody wr').
  { intros Nb u. destruct (decide (u = t)) as [->|Hne]; [done|]. rewrite Hwr by done. apply Nb. }
  exists L. split; [|split; [auto|split; [|split; [|split]]]].
  - eapply (chain_frame txs txs'); [exact Hc|exact Htx| |tauto|done].
    intros p Hp. rewrite Forall_forall in HF. by apply NF, HF.
  - eapply Forall_impl; [exact HF|]. intros p [? ?]. auto.
  - intros r Hr. apply Hl. lia.
  - intros L1 u g L2 x E Hx. assert (u <> t).
    { apply NF. rewrite Forall_forall in HF. apply (HF (u, g)). rewrite E. apply elem_of_app. right. by left. }
    rewrite Htx in Hx by done. by apply (Hcov L1 u g L2 x).
  - destruct Ht as [(ws & H1 & H2 & H3 & H4 & H5 & H6)|[(c & vs0 & H1 & H2 & H3 & H4)|(H1 & H2 & H3 & H4 & H5)]].
    + left. exists ws. assert (m_creator m <> t) by auto. rewrite Hwr by done.
      split; [done|]. split; [done|]. split; [|split; [done|split; [lia|done]]].
      intros u Hu. destruct (decide (u = t)) as [->|Hne]; [done|]. rewrite Hwr by done. auto.
    + right; left. exists c, vs0. split; [done|]. split; [done|]. split; [auto|].
      destruct H4 as [[? ?]|[(i & I1 & I2 & I3) ?]]; [left; split; [done|lia]|right; split; [|lia]].
      exists i. split; [done|]. split; [done|]. assert (m_creator m <> t) by auto. rewrite Htx by done.
      destruct I3 as [(x & g & X1 & X2 & X3 & X4 & X5 & X6 & X7 & X8)|[? ?]]; [left|right; split; [done|lia]].
      exists x, g. auto 10.
    + right; right. repeat split; auto.
Qed.

(** ** Pruning *)
Lemma chain_prune txs txs' n l L :
  chain txs n l L -> Forall (fun p => p.1 < n) L -> (forall u, txs' !! u = txs !! u \/ txs' !! u = None) ->
  exists L1 L2, L = L1 ++ L2 /\ chain txs' n l L1 /\
    (L2 = [] \/ exists u g L3 x, L2 = (u, g) :: L3 /\ txs !! u = Some x /\ txs' !! u = None).
Proof.
  intros Hc HF Ht. induction Hc as [|l Hl Hln|l g L Hg Hc IH].
  - exists [], []. split; [done|]. split; [constructor|by left].
  - exists [], []. split; [done|]. split; [|by left]. apply ch_cut; [|done]. destruct (Ht l.1) as [E|E]; congruence.
  - inversion HF as [|? ? H1 H2]; subst. destruct (IH H2) as (L1 & L2 & -> & C & D). unfold get_log in Hg.
    destruct (txs !! l.1) as [x|] eqn:Ex; [|done]. destruct (txs' !! l.1) as [x'|] eqn:Ex'.
    + exists ((l.1, g) :: L1), L2. split; [done|]. split; [|done]. apply ch_log; [|done]. unfold get_log.
      rewrite Ex'. destruct (Ht l.1) as [E|E]; [|congruence]. rewrite Ex, Ex' in E. by injection E as ->.
    + exists [], ((l.1, g) :: L1 ++ L2). split; [done|]. split; [by apply ch_cut|]. right. eauto 10.
Qed.

Lemma row_prune txs txs' wr n mark k l m y vs :
  row_ok txs wr n mark k l m y vs ->
  (forall u ws, wr u = Some ws -> exists x, txs !! u = Some x /\ x_state x = Running) ->
  (forall u, txs' !! u = txs !! u \/ (txs' !! u = None /\ forall x, txs !! u = Some x -> kept mark x = false)) ->
  row_ok txs' wr n mark k l m y vs.
Proof.
  intros (L & Hc & Hf & HF & Hl & Hcov & Ht) Hrun Htx.
  destruct (chain_prune txs txs' n l L Hc) as (L1 & L2 & -> & C & D).
  { eapply Forall_impl; [exact HF|]. by intros p [[? _] _]. }
  { intros u. destruct (Htx u) as [?|[? _]]; auto. }
  assert (Old : forall x, kept mark x = false -> match x_state x with
      Running => False | Committed => x_commit x <= mark | Aborted => x_read x <= mark end).
  { intros x. unfold kept. destruct (x_state x); lia. }
  exists L1. rewrite Forall_app in HF. destruct HF as [HF1 HF2].
  split; [done|]. split; [done|]. split; [done|]. split; [|split].
  - intros r Hr. rewrite <- Hl by done. rewrite map_app. destruct D as [->|(u & g & L3 & x & -> & Hx & Hx')].
    { by rewrite app_nil_r. }
    symmetry. apply (look_app r (topv m y :: map ver L1)). specialize (Hcov L1 u g L3 x eq_refl Hx).
    destruct (Htx u) as [E|[_ K]]; [congruence|]. specialize (Old x (K x Hx)).
    destruct (x_state x); [done| |]; (eapply has_ts_mono; [exact Hcov|lia|done]).
  - intros M1 u g M2 x E Hx. subst L1. apply (Hcov M1 u g (M2 ++ L2) x).
    + by rewrite <- app_assoc.
    + destruct (Htx u) as [<-|[E _]]; [done|congruence].
  - destruct Ht as [(ws & H1 & H2 & H3 & H4 & H5 & H6)|[(c & vs0 & H1 & H2 & H3 & H4)|H]].
    + left. exists ws. rewrite app_length in H5. split; [done|]. split; [done|]. split; [done|]. split; [done|]. split; [lia|].
      intros ->. destruct (H6 eq_refl) as [?|(u & g & L0 & c & vs0 & E & E2 & E3 & E4)]; [by left|right].
      destruct L1 as [|p L1].
      * exfalso. destruct D as [->|(u' & g' & L3 & x & -> & Hx & Hx')]; [done|]. cbn in E.
        assert (u' = u) by congruence. subst u'. destruct (Hrun _ _ H1) as (x1 & R1 & R2).
        assert (x1 = x) by congruence. subst x1. destruct (Htx u) as [?|[_ K]]; [congruence|].
        specialize (Old x (K x Hx)). by rewrite R2 in Old.
      * cbn in E. exists u, g, L1, c, vs0. split; [|auto]. congruence.
    + right; left. exists c, vs0. split; [done|]. split; [done|]. split; [done|]. rewrite app_length in H4.
      destruct H4 as [[? ?]|[(i & I1 & I2 & I3) ?]]; [left; split; [done|lia]|right; split; [|lia]].
      exists i. split; [done|]. split; [done|].
      destruct I3 as [(x & g & X1 & X2 & X3 & X4)|[E ?]].
      * destruct (Htx (m_creator m)) as [E|[E K]]; [left; exists x, g; rewrite E; auto|right; split; [done|]].
        specialize (Old x (K x X1)). rewrite X2 in Old. lia.
      * right. split; [|done]. destruct (Htx (m_creator m)) as [E'|[E' _]]; congruence.
    + by right; right.
Qed.

(** ** Rows that an operation writes *)
Definition upd {A} (wr : N -> A) (t : N) (v : A) : N -> A := fun u => if N.eqb u t then v else wr u.
Lemma upd_eq {A} (wr : N -> A) t v : upd wr t v t = v.
Proof. unfold upd. by rewrite N.eqb_refl. Qed.
Lemma upd_ne {A} (wr : N -> A) t v u : u <> t -> upd wr t v u = wr u.
Proof. unfold upd. by destruct (N.eqb_spec u t). Qed.

Lemma get_log_grow txs t x gs ws l g :
  txs !! t = Some x -> get_log txs l = Some g ->
  get_log (<[t := Txn (x_level x) (x_state x) (x_read x) (x_commit x) (x_logs x ++ gs) ws]> txs) l = Some g.
Proof.
  intros Hx. unfold get_log. destruct (decide (l.1 = t)) as [->|Hne].
  - rewrite lookup_insert, Hx. cbn. apply lookup_app_l_Some.
  - by rewrite lookup_insert_ne.
Qed.

Lemma chain_grow txs n t x gs ws l L :
  txs !! t = Some x -> chain txs n l L ->
  chain (<[t := Txn (x_level x) (x_state x) (x_read x) (x_commit x) (x_logs x ++ gs) ws]> txs) n l L.
Proof.
  intros Hx. induction 1 as [|l Hl Hln|l g L Hg Hc IH].
  - constructor.
  - apply ch_cut; [|done]. rewrite lookup_insert_ne; [done|]. congruence.
  - apply ch_log; [by apply get_log_grow|done].
Qed.

Lemma row_overwrite txs wr n mark k l m old vs t x ws0 (del : bool) y' rws :
  row_ok txs wr n mark k l m old vs -> m_del m = false -> txs !! t = Some x -> x_state x = Running ->
  wr t = Some ws0 -> t < n -> (m_creator m = t \/ m_ts m <> None) ->
  row_ok (<[t := Txn (x_level x) (x_state x) (x_read x) (x_commit x)
               (x_logs x ++ [ULog old (m_ts m) (m_creator m) (m_idx m)]) rws]> txs)
    (upd wr t (Some ((if del then None else Some y') :: ws0))) n mark (S k) (Some (t, length (x_logs x)))
    (Meta t None del (Some (length (x_logs x)))) y' vs.
Proof.
  intros (L & Hc & Hf & HF & Hl & Hcov & Ht) Hdel Hx Hrun Hw Htn Hor.
  set (g := ULog old (m_ts m) (m_creator m) (m_idx m)). match goal with |- row_ok ?a ?b _ _ _ _ _ _ _ => set (txs' := a); set (wr' := b) end.
  assert (Hg : get_log txs' (t, length (x_logs x)) = Some g).
  { unfold get_log, txs'. cbn. rewrite lookup_insert. cbn. rewrite lookup_app_r by lia. by rewrite Nat.sub_diag. }
  assert (FF : forall u, fine wr n u -> fine wr' n u).
  { intros u [Hu Hwu]. split; [done|]. unfold wr', upd. by destruct (N.eqb u t). }
  assert (Ft : fine wr' n t) by (split; [done|]; unfold wr'; by rewrite upd_eq).
  assert (HF' : Forall (fun p => fine wr' n p.1 /\ fine wr' n (u_ptxn p.2)) L).
  { eapply Forall_impl; [exact HF|]. intros p [? ?]. auto. }
  assert (TX : forall u z, txs' !! u = Some z -> exists z0, txs !! u = Some z0 /\ x_state z0 = x_state z /\
      x_commit z0 = x_commit z /\ x_read z0 = x_read z).
  { intros u z. unfold txs'. destruct (decide (u = t)) as [->|Hne].
    - rewrite lookup_insert. intros [= <-]. exists x. auto.
    - rewrite lookup_insert_ne by done. intros E. exists z. auto. }
  (* the new chain is the old one below one or two more logs *)
  assert (Cov : forall L1 L2, L2 = L1 ++ L -> Forall (fun p => match txs' !! p.1 with
        Some z => match x_state z with Running => True | _ => False end | None => False end) L1 ->
      (forall v, v ∈ [topv m old] -> m_ts m <> None -> v ∈ map ver L1) ->
      covered txs' (None, if del then None else Some y') L2).
  { intros L1 L2 -> HR Htop M1 u gg M2 z E Hz.
    assert (HM : x_state z <> Running -> exists M, M1 = L1 ++ M /\ L = M ++ (u, gg) :: M2).
    { intros Sz. clear - E HR Hz Sz. revert M1 E. induction HR as [|p L1 Hp HR IH]; intros M1 E; [by exists M1|].
      destruct M1 as [|q M1]; cbn in E.
      - exfalso. injection E as -> E. cbn in Hp. rewrite Hz in Hp. by destruct (x_state z).
      - injection E as -> E. destruct (IH M1 E) as (M & -> & ->). by exists M. }
    destruct (x_state z) eqn:Sz; [done| |].
    all: destruct (HM ltac:(done)) as (M & -> & HM'); destruct (TX _ _ Hz) as (z0 & Z1 & Z2 & Z3 & Z4);
      specialize (Hcov M u gg M2 z0 HM' Z1); rewrite Z2, Sz in Hcov; rewrite ?Z3, ?Z4 in Hcov;
      destruct Hcov as (c & v & Hin & Hcb); exists c, v; (split; [|done]);
      rewrite map_app; apply elem_of_cons; right; apply elem_of_app;
      (apply elem_of_cons in Hin as [Hin|Hin]; [left|by right]);
      apply Htop; [by rewrite Hin; left|]; unfold topv in Hin; injection Hin; intros; congruence. }
  destruct Ht as [(ws & H1 & H2 & H3 & H4 & H5 & H6)|[(c & vs0 & H1 & H2 & H3 & H4)|(H1 & _)]]; [| |congruence].
  - (* the row was already written by t *)
    assert (m_creator m = t) as Et by (destruct Hor; [done|congruence]).
    exists ((t, g) :: L). split; [|split; [done|split; [|split; [|split]]]].
    + apply (ch_log txs' n (t, length (x_logs x))); [done|]. apply chain_grow; [done|].
      unfold prev_link, g. cbn [u_pidx u_ptxn]. unfold regular in H4. rewrite <- H4. done.
    + constructor; [|done]. split; cbn; [done|]. by rewrite Et.
    + intros r Hr. rewrite <- Hl by done. unfold topv. cbn. by rewrite H2.
    + apply (Cov [(t, g)]); [done| |].
      * constructor; [|done]. cbn. unfold txs'. rewrite lookup_insert. cbn. by rewrite Hrun.
      * intros; congruence.
    + left. exists (ws0). cbn [m_creator]. unfold wr'. rewrite upd_eq. split; [done|]. split; [done|].
      split; [|split; [done|split; [cbn; lia|]]].
      * intros u Hu. rewrite upd_ne by done. apply H3. congruence.
      * intros ->. congruence.
  - (* the row was committed *)
    assert (ws0 = []) as -> by (destruct (H3 t); congruence).
    assert (Hvs : vs = (c, Some (u_tuple g)) :: vs0) by (rewrite H2; unfold topv; by rewrite Hdel).
    assert (Act : forall LL, (length LL <= k)%nat -> top_active wr' (S k) (Some (t, length (x_logs x)))
        (Meta t None del (Some (length (x_logs x)))) y' vs ((t, g) :: LL)).
    { intros LL HLL. exists []. cbn [m_creator]. unfold wr'. rewrite upd_eq. split; [done|]. split; [done|].
      split; [|split; [done|split; [cbn; lia|]]].
      - intros u Hu. rewrite upd_ne by done. apply H3.
      - intros _. right. exists t, g, LL, c, vs0. auto. }
    assert (Rn : forall p LL, p = (t, g) -> Forall (fun p : N * ulog => match txs' !! p.1 with
        Some z => match x_state z with Running => True | _ => False end | None => False end) LL ->
        Forall (fun p : N * ulog => match txs' !! p.1 with
        Some z => match x_state z with Running => True | _ => False end | None => False end) (p :: LL)).
    { intros p LL -> H. constructor; [|done]. cbn. unfold txs'. rewrite lookup_insert. cbn. by rewrite Hrun. }
    assert (Tg : topv m old = ver (t, g)) by (unfold topv, ver; by rewrite Hdel).
    destruct H4 as [[R HL]|[(i & I1 & I2 & [(x1 & g1 & X1 & X2 & X3 & X4 & X5 & X6 & X7 & X8)|[X1 X2]]) HL]].
    + exists ((t, g) :: L). split; [|split; [done|split; [|split; [|split]]]].
      * apply (ch_log txs' n (t, length (x_logs x))); [done|]. apply chain_grow; [done|].
        unfold prev_link, g. cbn [u_pidx u_ptxn]. unfold regular in R. rewrite <- R. done.
      * constructor; [|done]. split; cbn; [done|]. auto.
      * intros r Hr. rewrite <- Hl by done. cbn [map]. rewrite <- Tg. done.
      * apply (Cov [(t, g)]); [done|by apply Rn|]. intros v Hv _. apply elem_of_list_singleton in Hv as ->.
        rewrite Tg. by left.
      * left. by apply Act.
    + (* above a restored version whose transaction is still known *)
      assert (Hne : m_creator m <> t) by congruence.
      assert (V1 : ver (m_creator m, g1) = ver (t, g)).
      { unfold ver, g. cbn. by rewrite X5, X6, H1. }
      exists ((t, g) :: (m_creator m, g1) :: L). split; [|split; [done|split; [|split; [|split]]]].
      * apply (ch_log txs' n (t, length (x_logs x))); [done|]. unfold prev_link at 1, g. cbn [u_pidx u_ptxn]. rewrite I1.
        apply (ch_log txs' n (m_creator m, i)).
        -- apply get_log_grow; [done|]. unfold get_log. cbn. by rewrite X1.
        -- rewrite X7. by apply chain_grow.
      * constructor; [split; cbn; [done|auto]|]. constructor; [|done]. split; cbn; auto.
      * intros r Hr. rewrite <- Hl by done. cbn [map]. rewrite V1, <- Tg. unfold topv. cbn. rewrite H1. by destruct (c <=? r).
      * intros M1 u gg M2 z E Hz. destruct M1 as [|p M1].
        { injection E as <- <- <-. unfold txs' in Hz. rewrite lookup_insert in Hz. injection Hz as <-. cbn. by rewrite Hrun. }
        injection E as <- E. destruct M1 as [|q M1].
        { injection E as <- <- <-. unfold txs' in Hz. rewrite lookup_insert_ne in Hz by done.
          assert (z = x1) by congruence. subst z. rewrite X2. exists c, (Some old). split; [|done]. cbn [map].
          right. apply elem_of_cons. left. unfold ver, g. cbn. by rewrite H1. }
        injection E as <- E. destruct (TX _ _ Hz) as (z0 & Z1 & Z2 & Z3 & Z4).
        specialize (Hcov M1 u gg M2 z0 E Z1). rewrite Z2, Z3, Z4 in Hcov.
        destruct (x_state z); [done| |]; (eapply has_ts_mono; [exact Hcov|lia|]); cbn [map]; rewrite Tg;
          intros v Hv; (apply elem_of_cons in Hv as [->|Hv]; [right; left|right; right; right]); done.
      * left. apply Act. cbn. lia.
    + (* above a restored version whose transaction has been forgotten *)
      assert (Hne : m_creator m <> t) by congruence.
      exists [(t, g)]. split; [|split; [done|split; [|split; [|split]]]].
      * apply (ch_log txs' n (t, length (x_logs x))); [done|]. unfold prev_link, g. cbn [u_pidx u_ptxn]. rewrite I1.
        apply ch_cut; cbn; [|apply Hf]. unfold txs'. by rewrite lookup_insert_ne.
      * constructor; [split; cbn; [done|auto]|done].
      * intros r Hr. rewrite Hvs. cbn. rewrite H1. by replace (c <=? r) with true by lia.
      * intros M1 u gg M2 z E Hz. destruct M1 as [|p [|q M1]]; try done.
        injection E as <- <- <-. unfold txs' in Hz. rewrite lookup_insert in Hz. injection Hz as <-. cbn. by rewrite Hrun.
      * left. apply Act. cbn. lia.
Qed.

(** A row that [t] wrote, when [t] commits. *)
Lemma chain_change txs n t x x' l L :
  txs !! t = Some x -> x_logs x' = x_logs x -> chain txs n l L -> chain (<[t := x']> txs) n l L.
Proof.
  intros Hx Hl. induction 1 as [|l Hn Hln|l g L Hg Hc IH].
  - constructor.
  - apply ch_cut; [|done]. rewrite lookup_insert_ne; [done|]. congruence.
  - apply ch_log; [|done]. unfold get_log in *. destruct (decide (l.1 = t)) as [E|Hne].
    + rewrite E in *. rewrite lookup_insert. rewrite Hx in Hg. by rewrite Hl.
    + by rewrite lookup_insert_ne.
Qed.

Lemma written_active txs wr n mark k l m y vs t v ws L :
  wr t = Some (v :: ws) -> 
  (top_active wr k l m y vs L \/ top_committed txs wr n mark k l m y vs L \/ top_dead wr l m vs) ->
  m_creator m = t /\ top_active wr k l m y vs L /\ v = (topv m y).2.
Proof.
  intros Hw [H|[(c & vs0 & _ & _ & Nb & _)|(_ & _ & _ & _ & Nb)]].
  - pose proof H as (ws1 & H1 & _ & H3 & _). destruct (decide (m_creator m = t)) as [E|Hne].
    + split; [done|]. split; [done|]. congruence.
    + destruct (H3 t ltac:(congruence)); congruence.
  - destruct (Nb t); congruence.
  - destruct (Nb t); congruence.
Qed.

Lemma nobody_after wr t : (forall u, u <> t -> wr u = None \/ wr u = Some []) -> nobody (upd wr t None).
Proof. intros H u. unfold upd. destruct (N.eqb_spec u t); auto. Qed.

Lemma row_commit txs wr n mark mark' k l m y vs t x v ws cts :
  row_ok txs wr n mark k l m y vs -> txs !! t = Some x -> wr t = Some (v :: ws) -> mark <= mark' ->
  m_creator m = t /\
  row_ok (<[t := Txn (x_level x) Committed (x_read x) cts (x_logs x) (x_ws x)]> txs) (upd wr t None) n mark' k l
    (Meta (m_creator m) (Some cts) (m_del m) (m_idx m)) y ((cts, v) :: vs).
Proof.
  intros (L & Hc & Hf & HF & Hl & Hcov & Ht) Hx Hw Hm.
  destruct (written_active _ _ _ _ _ _ _ _ _ _ _ _ _ Hw Ht) as (Et & (ws1 & H1 & H2 & H3 & H4 & H5 & _) & Hv).
  split; [done|].
  assert (FF : forall u, fine wr n u -> fine (upd wr t None) n u).
  { intros u [Hu Hwu]. split; [done|]. unfold upd. by destruct (N.eqb u t). }
  exists L. split; [by eapply chain_change|]. split; [by apply FF|]. split; [|split; [|split]].
  - eapply Forall_impl; [exact HF|]. intros p [? ?]. auto.
  - intros r Hr. specialize (Hl r ltac:(lia)). cbn in *. rewrite H2 in Hl. destruct (cts <=? r); [|done]. by rewrite Hv.
  - intros L1 u g L2 z E Hz. destruct (decide (u = t)) as [->|Hne].
    + rewrite lookup_insert in Hz. injection Hz as <-. cbn. exists cts, (topv m y).2. split; [by left|lia].
    + rewrite lookup_insert_ne in Hz by done. specialize (Hcov L1 u g L2 z E Hz).
      destruct (x_state z); [done| |]; destruct Hcov as (c & v0 & Hin & Hb); exists c, v0; (split; [|done]);
        (apply elem_of_cons in Hin as [Hin|Hin]; [|by right]); unfold topv in Hin; congruence.
  - right; left. exists cts, vs. split; [done|]. split; [by rewrite Hv|]. split; [|by left].
    apply nobody_after. by rewrite <- Et.
Qed.

(** A row that [t] wrote once, when [t] aborts. *)
Lemma row_abort txs wr n mark mark' k l m y vs t x v :
  row_ok txs wr n mark k l m y vs -> txs !! t = Some x -> wr t = Some [v] -> mark <= mark' ->
  (forall c v0 vs0, vs = (c, v0) :: vs0 -> c <= x_read x) ->
  let txs' := <[t := Txn (x_level x) Aborted (x_read x) (x_commit x) (x_logs x) (x_ws x)]> txs in
  match l with
  | None => row_ok txs' (upd wr t None) n mark' k None (Meta t None true None) y vs
  | Some l => exists g, get_log txs l = Some g /\
      row_ok txs' (upd wr t None) n mark' k (prev_link g) (Meta l.1 (u_ts g) false (Some l.2)) (u_tuple g) vs
  end.
Proof.
  intros (L & Hc & Hf & HF & Hl & Hcov & Ht) Hx Hw Hm Hcl txs'.
  destruct (written_active _ _ _ _ _ _ _ _ _ _ _ _ _ Hw Ht) as (Et & (ws1 & H1 & H2 & H3 & H4 & H5 & H6) & Hv).
  assert (ws1 = []) as -> by (rewrite Et in H1; congruence). specialize (H6 eq_refl).
  assert (FF : forall u, fine wr n u -> fine (upd wr t None) n u).
  { intros u [Hu Hwu]. split; [done|]. unfold upd. by destruct (N.eqb u t). }
  assert (Nb : nobody (upd wr t None)) by (apply nobody_after; by rewrite <- Et).
  destruct H6 as [[-> ->]|(u & g & L0 & c & vs0 & -> & -> & Hg & Hvs)].
  - exists []. split; [constructor|]. split; [rewrite Et in Hf; by apply FF|]. split; [constructor|]. split; [done|]. split.
    + intros L1 ? ? ? ? E. by destruct L1.
    + right; right. done.
  - inversion Hc as [| |l0 g0 L1 Hg0 Hc0 E1 E2]; subst. exists g. split; [done|].
    assert (Hl01 : l0.1 = m_creator m) by congruence.
    assert (Hr : get_log txs l0 = x_logs x !! l0.2) by (unfold get_log; by rewrite Hl01, Hx).
    inversion HF as [|? ? [F1 F2] HF0]; subst. cbn in F1, F2.
    exists L0. split; [by eapply chain_change|]. split; [cbn; rewrite Hl01; auto|]. split; [|split; [|split]].
    + eapply Forall_impl; [exact HF0|]. intros p [? ?]. auto.
    + intros r Hr2. rewrite <- Hl by lia. cbn. by rewrite H2, Hg.
    + intros L1 u gg L2 z E Hz.
      assert (Has : forall b, has_ts b (topv m y :: map ver ((l0.1, g) :: L1)) ->
        has_ts b (topv (Meta l0.1 (u_ts g) false (Some l0.2)) (u_tuple g) :: map ver L1)).
      { intros b (c0 & v0 & Hin & Hb). exists c0, v0. split; [|done]. apply elem_of_cons in Hin as [Hin|Hin]; [|done].
        unfold topv in Hin. congruence. }
      destruct (decide (u = m_creator m)) as [->|Hne].
      * unfold txs' in Hz. rewrite lookup_insert in Hz. injection Hz as <-. cbn. exists c, (Some (u_tuple g)). split.
        -- cbn. unfold topv. cbn. rewrite Hg. by left.
        -- by apply (Hcl c (Some (u_tuple g)) vs0).
      * unfold txs' in Hz. rewrite lookup_insert_ne in Hz by done. specialize (Hcov ((l0.1, g) :: L1) u gg L2 z).
        cbn [app] in Hcov. rewrite E in Hcov. specialize (Hcov ltac:(by rewrite Hl01) Hz). rewrite Hl01 in Has.
        destruct (x_state z); auto.
    + right; left. exists c, vs0. split; [done|]. split; [done|]. split; [done|]. right. split; [|cbn in H5; lia].
      exists l0.2. split; [done|]. split; [done|]. left. cbn [m_creator]. rewrite Hl01. unfold txs'.
      rewrite lookup_insert. eexists _, g. split; [done|]. split; [done|]. split; [by eapply Hcl|].
      split; [cbn; congruence|]. split; [done|]. split; [done|]. split; [done|]. by apply FF.
Qed.
