(** * Where the versions that readers find come from

    An invariant that holds in every history in which callers of update name themselves, with
    commits in several steps, garbage collection, and any aborts. *)
From stdpp Require Import gmap list.
From Coq Require Import NArith Lia ZifyBool ZifyNat ZifyN.
From Verif Require Import WatermarkModel MvccModel MvccSpec MvccRowProofs MvccProofs.
Local Open Scope N_scope.

Definition shown (m : meta) (y : tuple) : option tuple := if m_del m then None else Some y.

(** A version of row [rd] made by [u] with timestamp [ts]: a write of [u] if [u] is running, a
    committed version if it has a timestamp. *)
Definition sound (w : world) (rd : rid) (u : N) (ts : option N) (v : option tuple) : Prop :=
  (forall a, now w !! u = Some a -> v ∈ writes a rd) /\ (forall c, ts = Some c -> (c, v) ∈ versions w rd).

Record dinv (st : mv) (w : world) (own : N -> nat -> option rid) : Prop := DInv {
  d_ids : forall u x, tx st !! u = Some x -> u < nid st;
  d_run : forall u a, now w !! u = Some a -> exists x, tx st !! u = Some x /\ x_state x = Running /\
            x_level x = a_level a /\ x_read x = a_snap a /\ (forall rd, rd ∈ x_ws x <-> writes a rd <> []);
  d_now : forall u x, tx st !! u = Some x -> x_state x = Running -> exists a, now w !! u = Some a;
  d_fresh : forall u i rd, own u i = Some rd -> u < nid st;
  d_range : forall u x i rd, own u i = Some rd -> tx st !! u = Some x -> (i < length (x_logs x))%nat;
  d_hold : forall u a rd, now w !! u = Some a -> writes a rd <> [] -> exists m y, pg st !! rd = Some (m, y) /\
             m_creator m = u /\ m_ts m = None /\ head (writes a rd) = Some (shown m y) /\
             (forall l, lk st !! rd = Some l -> l.1 = u);
  d_back : forall rd m y a, pg st !! rd = Some (m, y) -> now w !! m_creator m = Some a -> writes a rd <> [];
  d_done : forall u x rd m y, tx st !! u = Some x -> x_state x = Committed -> rd ∈ x_ws x -> pg st !! rd = Some (m, y) ->
             m_creator m = u -> (x_commit x, shown m y) ∈ versions w rd;
  d_page : forall rd m y, pg st !! rd = Some (m, y) -> m_creator m < nid st /\
             (forall c, m_ts m = Some c -> (c, shown m y) ∈ versions w rd) /\
             (forall i, m_idx m = Some i -> own (m_creator m) i = Some rd);
  d_link : forall rd l, lk st !! rd = Some l -> own l.1 l.2 = Some rd /\ pg st !! rd <> None;
  d_log : forall u x i g, tx st !! u = Some x -> x_logs x !! i = Some g -> exists rd, own u i = Some rd /\
            sound w rd (u_ptxn g) (u_ts g) (Some (u_tuple g)) /\ u_ptxn g < nid st /\
            (forall l, prev_link g = Some l -> own l.1 l.2 = Some rd) }.

Lemma dinv_init : dinv mv_init world0 (fun _ _ => None).
Proof. constructor; cbn; intros *; rewrite ?lookup_empty; try discriminate. Qed.

Lemma head_elem (v : option tuple) l : head l = Some v -> v ∈ l.
Proof. destruct l as [|x l]; [done|]. cbn. intros [= ->]. by left. Qed.

Lemma page_sound st w own rd m y : dinv st w own -> pg st !! rd = Some (m, y) ->
  sound w rd (m_creator m) (m_ts m) (shown m y).
Proof.
  intros D Hp. split; [|by eapply d_page].
  intros a Ha. pose proof (d_back _ _ _ D rd m y a Hp Ha) as Hne.
  destruct (d_hold _ _ _ D _ a rd Ha Hne) as (m' & y' & Hp' & _ & _ & Hh & _). rewrite Hp in Hp'. injection Hp' as <- <-.
  by apply head_elem.
Qed.

(** ** What a reader can get *)
Definition legit (w : world) (a : active) (rd : rid) (r : option N) (v : tuple) : Prop :=
  Some v ∈ writes a rd \/ exists c, (c, Some v) ∈ versions w rd /\ (forall s, r = Some s -> c <= s).

Lemma walk_legit st w own t r a rd : dinv st w own -> now w !! t = Some a ->
  forall fuel l v, (forall l0, l = Some l0 -> own l0.1 l0.2 = Some rd) -> walk fuel (tx st) t r l = Some v ->
  legit w a rd (Some r) v.
Proof.
  intros D Ha. induction fuel as [|fuel IH]; intros l v Hl Hw; cbn [walk] in Hw; [done|].
  destruct l as [l|]; [|done]. destruct (get_log (tx st) l) as [g|] eqn:Eg; [|done].
  unfold get_log in Eg. destruct (tx st !! l.1) as [x|] eqn:Ex; [|done].
  destruct (d_log _ _ _ D _ _ _ _ Ex Eg) as (rd' & O & [S1 S2] & _ & P).
  rewrite (Hl l eq_refl) in O. injection O as <-. unfold visibility in Hw. cbn [m_creator m_ts m_del] in Hw.
  destruct (N.eqb_spec (u_ptxn g) t) as [E|_].
  - injection Hw as <-. left. apply S1. by rewrite E.
  - destruct (u_ts g) as [c|]; [|by eapply IH]. destruct (N.ltb_spec r c) as [?|Hc]; [by eapply IH|].
    injection Hw as <-. right. exists c. split; [by apply S2|]. intros s [= <-]. done.
Qed.

(** What may have been read from the page, at this or an earlier moment. *)
Definition page_legit (w : world) (rd : rid) (t : N) (a : active) (p : meta * tuple) : Prop :=
  (m_creator p.1 = t -> shown p.1 p.2 ∈ writes a rd) /\
  (forall c, m_ts p.1 = Some c -> (c, shown p.1 p.2) ∈ versions w rd).

Lemma page_legit_now st w own t a rd p : dinv st w own -> now w !! t = Some a -> pg st !! rd = Some p ->
  page_legit w rd t a p.
Proof.
  intros D Ha Hp. destruct p as [m y]. destruct (page_sound _ _ _ _ _ _ D Hp) as [S1 S2]. split; [|done].
  cbn. intros <-. by apply S1.
Qed.

Lemma get_visible_legit st w own t a rd p v r : dinv st w own -> now w !! t = Some a ->
  page_legit w rd t a p -> get_visible st t r rd p = Some v -> legit w a rd (Some r) v.
Proof.
  intros D Ha [P1 P2]. destruct p as [m y]. cbn [fst snd] in *. unfold get_visible, visibility. cbn [fst snd].
  assert (Wk : walk (S (nlogs st)) (tx st) t r (lk st !! rd) = Some v -> legit w a rd (Some r) v).
  { eapply walk_legit; [done|done|]. intros l Hl. by apply (d_link _ _ _ D). }
  destruct (N.eqb_spec (m_creator m) t) as [E|_].
  - destruct (m_del m) eqn:Ed; [done|]. intros [= <-]. left. unfold shown in P1. rewrite Ed in P1. auto.
  - destruct (m_ts m) as [c|]; [|done]. destruct (N.ltb_spec r c) as [?|Hc]; [done|].
    destruct (m_del m) eqn:Ed; [done|]. intros [= <-]. right. exists c. unfold shown in P2. rewrite Ed in P2.
    split; [auto|]. intros s [= <-]. done.
Qed.

Lemma resolve_legit st w own t a rd p v : dinv st w own -> now w !! t = Some a -> a_level a <> LRU ->
  page_legit w rd t a p -> resolve st t rd p = Some v ->
  exists r, legit w a rd r v /\ (snapshot_level (a_level a) -> r = Some (a_snap a)).
Proof.
  intros D Ha Hl P. destruct (d_run _ _ _ D t a Ha) as (x & Hx & _ & X1 & X2 & _). unfold resolve. rewrite Hx, X1, X2.
  destruct (a_level a) eqn:El; [done| | | |].
  - destruct (N.eqb_spec (m_creator p.1) t) as [E|_]; cbn [orb].
    { destruct P as [P1 _]. specialize (P1 E). unfold shown in P1. destruct (m_del p.1); [done|]. intros [= <-].
      exists None. split; [by left|]. by intros [?|[?|?]]. }
    unfold committed. destruct (m_ts p.1) as [c|] eqn:Ets.
    + destruct P as [_ P2]. specialize (P2 c Ets). unfold shown in P2. destruct (m_del p.1); [done|]. intros [= <-].
      exists None. split; [|by intros [?|[?|?]]]. right. by exists c.
    + intros H. exists (Some (a_snap a)). split; [|by intros [?|[?|?]]]. by eapply get_visible_legit.
  - intros H. exists (Some (a_snap a)). split; [by eapply get_visible_legit|done].
  - intros H. exists (Some (a_snap a)). split; [by eapply get_visible_legit|done].
  - intros H. exists (Some (a_snap a)). split; [by eapply get_visible_legit|done].
Qed.

(** ** Preservation *)

(** Forgetting finished transactions and dropping links. *)
Lemma dinv_forget st st' w own : dinv st w own ->
  pg st' = pg st -> nid st' = nid st ->
  (forall u, tx st' !! u = tx st !! u \/ (tx st' !! u = None /\ forall x, tx st !! u = Some x -> x_state x <> Running)) ->
  (forall rd, lk st' !! rd = lk st !! rd \/ lk st' !! rd = None) -> dinv st' w own.
Proof.
  intros D Ep En Et El. destruct D as [D1 D2 D3 D4 D5 D6 D7 D8 D9 D10 D11].
  assert (K : forall u x, tx st' !! u = Some x -> tx st !! u = Some x).
  { intros u x. destruct (Et u) as [->|[-> _]]; done. }
  assert (KL : forall rd l, lk st' !! rd = Some l -> lk st !! rd = Some l).
  { intros rd l. destruct (El rd) as [->| ->]; done. }
  constructor; rewrite ?Ep, ?En; eauto.
  - intros u a Ha. destruct (D2 u a Ha) as (x & Hx & Hs & Hr). exists x. split; [|done].
    destruct (Et u) as [->|[_ N]]; [done|]. by specialize (N x Hx).
  - intros u a rd Ha Hw. destruct (D6 u a rd Ha Hw) as (m & y & H1 & H2 & H3 & H4 & H5). exists m, y. eauto 10.
Qed.

Lemma dinv_prune st w own : dinv st w own -> dinv (prune st) w own.
Proof.
  intros D. eapply dinv_forget; [exact D|done|done| |by left].
  intros u. destruct (prune_lookup st u) as [?|[? H]]; [by left|right]. split; [done|]. intros x Hx E.
  specialize (H x Hx). unfold kept in H. by rewrite E in H.
Qed.

Lemma dinv_gc st w own : dinv st w own -> dinv (gc st) w own.
Proof.
  intros D. unfold gc. apply dinv_prune. eapply dinv_forget; [exact D|done|done|by left|].
  intros rd. cbn. rewrite lookup_omap. destruct (lk st !! rd) as [l|]; cbn; [|by left].
  destruct (tx st !! l.1); [|by right]. destruct (_ <? _); [by left|by right].
Qed.

Lemma dinv_begin i st w own : dinv st w own -> let '(r, st') := begin i st in dinv st' (wstep w (OBegin i, r)) own.
Proof.
  intros D. unfold begin. destruct (get_next_ts_and_register (wk st)) as [w1 ts]. cbn [wstep].
  destruct D as [D1 D2 D3 D4 D5 D6 D7 D8 D9 D10 D11].
  assert (Fr : now w !! nid st = None).
  { destruct (now w !! nid st) as [a|] eqn:Ea; [|done]. destruct (D2 _ _ Ea) as (x & Hx & _). specialize (D1 _ _ Hx). lia. }
  assert (S : forall rd u t v, u < nid st -> sound w rd u t v -> sound (World (past w) (<[nid st := Act i ts ∅]> (now w))) rd u t v).
  { intros rd u t v Hu [S1 S2]. split; [|done]. intros a. cbn. rewrite lookup_insert_ne by lia. apply S1. }
  constructor; cbn [tx nid pg lk now].
  - intros u x. destruct (decide (u = nid st)) as [->|Hne]; [lia|]. rewrite lookup_insert_ne by done.
    intros Hx. specialize (D1 _ _ Hx). lia.
  - intros u a. destruct (decide (u = nid st)) as [->|Hne].
    + rewrite !lookup_insert. intros [= <-]. eexists. split; [done|]. cbn. split; [done|]. split; [done|]. split; [done|].
      intros rd. unfold writes. cbn. rewrite lookup_empty. cbn. set_solver.
    + rewrite !lookup_insert_ne by done. apply D2.
  - intros u x. destruct (decide (u = nid st)) as [->|Hne].
    + rewrite !lookup_insert. intros _ _. by eexists.
    + rewrite !lookup_insert_ne by done. apply D3.
  - intros u j rd O. specialize (D4 _ _ _ O). lia.
  - intros u x j rd O. specialize (D4 _ _ _ O). rewrite lookup_insert_ne by lia. by eapply D5.
  - intros u a rd. destruct (decide (u = nid st)) as [->|Hne].
    + rewrite lookup_insert. intros [= <-]. unfold writes. cbn. by rewrite lookup_empty.
    + rewrite lookup_insert_ne by done. apply D6.
  - intros rd m y a Hp. destruct (D9 _ _ _ Hp) as [Hc _]. rewrite lookup_insert_ne by lia. by eapply D7.
  - intros u x rd m y Hx Hs Hin Hp Hc. destruct (D9 _ _ _ Hp) as [Hc2 _]. rewrite lookup_insert_ne in Hx by lia.
    by eapply D8.
  - intros rd m y Hp. destruct (D9 _ _ _ Hp) as [Hc Hr]. split; [lia|]. exact Hr.
  - done.
  - intros u x j g. destruct (decide (u = nid st)) as [->|Hne].
    + rewrite lookup_insert. intros [= <-]. done.
    + rewrite lookup_insert_ne by done. intros Hx Hg. destruct (D11 _ _ _ _ Hx Hg) as (rd & O & S1 & P & Q).
      exists rd. split; [done|]. split; [by apply S|]. split; [lia|done].
Qed.

(** An accepted write of [t] to [rd]. *)
Lemma sound_add w t a rd v rd' u ts v' : now w !! t = Some a -> sound w rd' u ts v' -> sound (add_write t rd v w) rd' u ts v'.
Proof.
  intros Ha [S1 S2]. split; [|done]. intros b. cbn. destruct (decide (u = t)) as [->|Hne].
  - rewrite lookup_alter, Ha. cbn. intros [= <-]. specialize (S1 a Ha). unfold writes in *. cbn.
    destruct (decide (rd' = rd)) as [->|Hrd].
    + rewrite lookup_insert. cbn. by right.
    + by rewrite lookup_insert_ne.
  - rewrite lookup_alter_ne by done. apply S1.
Qed.

Lemma dinv_write st st' w own own' t x a rd m' y' gs :
  dinv st w own -> tx st !! t = Some x -> x_state x = Running -> now w !! t = Some a ->
  m_creator m' = t -> m_ts m' = None ->
  pg st' = <[rd := (m', y')]> (pg st) ->
  tx st' = <[t := Txn (x_level x) (x_state x) (x_read x) (x_commit x) (x_logs x ++ gs) ({[rd]} ∪ x_ws x)]> (tx st) ->
  nid st' = nid st ->
  (forall u a', now w !! u = Some a' -> u <> t -> writes a' rd = []) ->
  (forall l, lk st' !! rd = Some l -> l.1 = t) ->
  (forall rd' l, lk st' !! rd' = Some l -> lk st !! rd' = Some l \/ (rd' = rd /\ own' l.1 l.2 = Some rd)) ->
  (forall u i r, own u i = Some r -> own' u i = Some r) ->
  (forall u i r, own' u i = Some r -> own u i = Some r \/ (u = t /\ (i < length (x_logs x ++ gs))%nat)) ->
  (forall i, m_idx m' = Some i -> own' t i = Some rd) ->
  (forall j g, gs !! j = Some g -> exists r, own' t (length (x_logs x) + j)%nat = Some r /\
     sound w r (u_ptxn g) (u_ts g) (Some (u_tuple g)) /\ u_ptxn g < nid st /\
     (forall l, prev_link g = Some l -> own l.1 l.2 = Some r)) ->
  dinv st' (add_write t rd (shown m' y') w) own'.
Proof.
  intros D Hx Hs Ha Mc Mt Ep Et En Hoth Hlk1 Hlk2 Hown1 Hown2 Hidx Hgs.
  pose proof D as [D1 D2 D3 D4 D5 D6 D7 D8 D9 D10 D11].
  destruct (D2 t a Ha) as (x0 & Hx0 & R1 & R2 & R3 & R4). assert (x0 = x) by congruence. subst x0.
  assert (NW : forall u b, now (add_write t rd (shown m' y') w) !! u = Some b ->
      (u <> t /\ now w !! u = Some b) \/ (u = t /\ b = Act (a_level a) (a_snap a) (<[rd := shown m' y' :: writes a rd]> (a_writes a)))).
  { intros u b. cbn. destruct (decide (u = t)) as [->|Hne].
    - rewrite lookup_alter, Ha. cbn. intros [= <-]. by right.
    - rewrite lookup_alter_ne by done. by left. }
  assert (WN : forall rd', writes (Act (a_level a) (a_snap a) (<[rd := shown m' y' :: writes a rd]> (a_writes a))) rd' =
      if decide (rd' = rd) then shown m' y' :: writes a rd else writes a rd').
  { intros rd'. unfold writes. cbn. destruct (decide (rd' = rd)) as [->|Hne]; [by rewrite lookup_insert|by rewrite lookup_insert_ne]. }
  constructor; rewrite ?En, ?Et, ?Ep.
  - intros u z. destruct (decide (u = t)) as [->|Hne].
    + intros _. by eapply D1.
    + rewrite lookup_insert_ne by done. apply D1.
  - intros u b Hb. destruct (NW u b Hb) as [[Hne Hb0]|[-> ->]].
    + rewrite lookup_insert_ne by done. by apply D2.
    + rewrite lookup_insert. eexists. split; [done|]. cbn. split; [done|]. split; [done|]. split; [done|].
      intros rd'. rewrite WN. destruct (decide (rd' = rd)) as [->|Hrd].
      * split; [done|]. intros _. set_solver.
      * rewrite <- (R4 rd'). set_solver.
  - intros u z. cbn. destruct (decide (u = t)) as [->|Hne].
    + intros _ _. rewrite lookup_alter, Ha. by eexists.
    + rewrite lookup_alter_ne, lookup_insert_ne by done. apply D3.
  - intros u i r O. destruct (Hown2 u i r O) as [O1|[-> _]]; [by eapply D4|by eapply D1].
  - intros u z i r O. destruct (Hown2 u i r O) as [O1|[-> Hi]].
    + destruct (decide (u = t)) as [->|Hne].
      * rewrite lookup_insert. intros [= <-]. cbn. rewrite app_length. specialize (D5 _ _ _ _ O1 Hx). lia.
      * rewrite lookup_insert_ne by done. by eapply D5.
    + rewrite lookup_insert. intros [= <-]. done.
  - intros u b rd' Hb Hw. destruct (NW u b Hb) as [[Hne Hb0]|[-> ->]].
    + assert (rd' <> rd) by (intros ->; apply Hw; by eapply Hoth).
      destruct (D6 u b rd' Hb0 Hw) as (m & y & H1 & H2 & H3 & H4 & H5). exists m, y. rewrite lookup_insert_ne by done.
      do 4 (split; [done|]). intros l Hl. destruct (Hlk2 _ _ Hl) as [?|[? _]]; [auto|done].
    + rewrite WN in Hw. destruct (decide (rd' = rd)) as [->|Hrd].
      * exists m', y'. rewrite lookup_insert. rewrite WN, decide_True by done. do 4 (split; [done|]). done.
      * destruct (D6 t a rd' Ha Hw) as (m & y & H1 & H2 & H3 & H4 & H5). exists m, y. rewrite lookup_insert_ne by done.
        rewrite WN, decide_False by done. do 4 (split; [done|]).
        intros l Hl. destruct (Hlk2 _ _ Hl) as [?|[? _]]; [auto|done].
  - intros rd' m y b. destruct (decide (rd' = rd)) as [->|Hrd].
    + rewrite lookup_insert. intros [= <- <-]. rewrite Mc. intros Hb. destruct (NW t b Hb) as [[? _]|[_ ->]]; [done|].
      by rewrite WN, decide_True.
    + rewrite lookup_insert_ne by done. intros Hp Hb. destruct (NW _ b Hb) as [[Hne Hb0]|[E ->]].
      * by eapply D7.
      * rewrite WN, decide_False by done. eapply D7; [exact Hp|]. by rewrite E.
  - intros u z rd' m y Hz Hsz Hin Hp Hc. destruct (decide (u = t)) as [->|Hne].
    { rewrite lookup_insert in Hz. injection Hz as <-. cbn in Hsz. congruence. }
    rewrite lookup_insert_ne in Hz by done. destruct (decide (rd' = rd)) as [->|Hrd].
    + rewrite lookup_insert in Hp. injection Hp as <- <-. congruence.
    + rewrite lookup_insert_ne in Hp by done. by eapply (D8 u z rd' m y).
  - intros rd' m y. destruct (decide (rd' = rd)) as [->|Hrd].
    + rewrite lookup_insert. intros [= <- <-]. rewrite Mc, Mt. split; [by eapply D1|]. split; [done|]. exact Hidx.
    + rewrite lookup_insert_ne by done. intros Hp. destruct (D9 _ _ _ Hp) as (P1 & P2 & P3). split; [done|]. split; [done|].
      intros i Hi. apply Hown1. by apply P3.
  - intros rd' l Hl. split.
    + destruct (Hlk2 _ _ Hl) as [H|[-> H]]; [|done]. apply Hown1. by apply D10.
    + destruct (decide (rd' = rd)) as [->|Hrd]; [by rewrite lookup_insert|]. rewrite lookup_insert_ne by done.
      destruct (Hlk2 _ _ Hl) as [H|[-> H]]; [|done]. by eapply D10.
  - intros u z i g. destruct (decide (u = t)) as [->|Hne].
    + rewrite lookup_insert. intros [= <-]. cbn. intros Hg. apply lookup_app_Some in Hg as [Hg|[Hle Hg]].
      * destruct (D11 _ _ _ _ Hx Hg) as (r & O & S1 & P & Q). exists r. split; [by apply Hown1|].
        split; [by eapply sound_add|]. split; [done|]. intros l Hl. apply Hown1. by apply Q.
      * destruct (Hgs _ _ Hg) as (r & O & S1 & P & Q). exists r. replace i with (length (x_logs x) + (i - length (x_logs x)))%nat by lia.
        split; [done|]. split; [by eapply sound_add|]. split; [done|]. intros l Hl. apply Hown1. by apply Q.
    + rewrite lookup_insert_ne by done. intros Hz Hg. destruct (D11 _ _ _ _ Hz Hg) as (r & O & S1 & P & Q).
      exists r. split; [by apply Hown1|]. split; [by eapply sound_add|]. split; [done|].
      intros l Hl. apply Hown1. by apply Q.
Qed.

Lemma dinv_insert t rd y st w own : dinv st w own ->
  let '(r, st') := insert t rd y st in dinv st' (wstep w (OInsert t rd y, r)) own.
Proof.
  intros D. unfold insert. destruct (running st t) as [x|] eqn:Er; [|done].
  destruct (pg st !! rd) as [p|] eqn:Ep; [done|]. cbn [wstep].
  apply running_spec in Er as [Hx Hs]. destruct (d_now _ _ _ D t x Hx Hs) as [a Ha].
  assert (Nl : lk st !! rd = None).
  { destruct (lk st !! rd) as [l|] eqn:El; [|done]. by destruct (d_link _ _ _ D rd l El). }
  eapply (dinv_write st _ w own own t x a rd (Meta t None false None) y []); try done.
  - by rewrite app_nil_r.
  - intros u b Hb _. destruct (writes b rd) eqn:E; [done|]. exfalso.
    destruct (d_hold _ _ _ D u b rd Hb ltac:(by rewrite E)) as (? & ? & ? & _). congruence.
  - cbn. intros l Hl. congruence.
  - by left.
  - by left.
Qed.

Lemma dinv_overwrite t x a rd m old y del st w own :
  dinv st w own -> tx st !! t = Some x -> x_state x = Running -> now w !! t = Some a -> pg st !! rd = Some (m, old) ->
  m_del m = false -> (m_creator m = t \/ m_ts m <> None) ->
  exists own', dinv (overwrite t x rd m old y del st) (add_write t rd (if del then None else Some y) w) own'.
Proof.
  intros D Hx Hs Ha Ep Hd Hor.
  set (own' := fun u i => if decide (u = t /\ i = length (x_logs x)) then Some rd else own u i).
  assert (Fr : forall r, own t (length (x_logs x)) <> Some r).
  { intros r O. pose proof (d_range _ _ _ D _ _ _ _ O Hx). lia. }
  exists own'.
  change (if del then None else Some y) with (shown (Meta t None del (Some (length (x_logs x)))) y).
  eapply (dinv_write st _ w own own' t x a rd _ y); try done.
  - intros u b Hb Hne. destruct (writes b rd) eqn:E; [done|]. exfalso.
    destruct (d_hold _ _ _ D u b rd Hb ltac:(by rewrite E)) as (m1 & y1 & H1 & H2 & H3 & _).
    rewrite Ep in H1. injection H1 as <- <-. destruct Hor; congruence.
  - cbn. rewrite lookup_insert. by intros l [= <-].
  - cbn. intros rd' l. destruct (decide (rd' = rd)) as [->|Hrd].
    + rewrite lookup_insert. intros [= <-]. right. split; [done|]. unfold own'. by rewrite decide_True.
    + rewrite lookup_insert_ne by done. by left.
  - intros u i r O. unfold own'. rewrite decide_False; [done|]. intros [-> ->]. by eapply Fr.
  - intros u i r. unfold own'. destruct (decide (u = t /\ i = length (x_logs x))) as [[-> ->]|_]; [|by left].
    intros _. right. split; [done|]. rewrite app_length. cbn. lia.
  - cbn. intros i [= <-]. unfold own'. by rewrite decide_True.
  - intros [|j] g Hg; [|done]. injection Hg as <-. exists rd. rewrite Nat.add_0_r. split.
    { unfold own'. by rewrite decide_True. }
    cbn [u_ptxn u_ts u_tuple]. destruct (d_page _ _ _ D _ _ _ Ep) as (P1 & _ & P3). split; [|split; [done|]].
    + pose proof (page_sound _ _ _ _ _ _ D Ep) as S. unfold shown in S. by rewrite Hd in S.
    + unfold prev_link. cbn. intros l. destruct (m_idx m) as [i|]; [|done]. intros [= <-]. by apply P3.
Qed.

(** The start of a commit. *)
Lemma dinv_commit_start t st w own : dinv st w own ->
  let '(r, st') := commit_start t st in
  dinv st' (wstep w (OCommitStart t, r)) own /\ wstep w (OCommit t, r) = wstep w (OCommitStart t, r).
Proof.
  intros D. unfold commit_start. destruct (running st t) as [x|] eqn:Er; [|done].
  cbn [get_next_ts]. set (w3 := remove_txn _ _). set (cts := wm_next (wk st)). clearbody w3 cts. cbn [wstep]. split; [|done].
  apply running_spec in Er as [Hx Hs]. destruct (d_now _ _ _ D t x Hx Hs) as [a Ha]. unfold finish_commit. rewrite Ha.
  destruct D as [D1 D2 D3 D4 D5 D6 D7 D8 D9 D10 D11].
  assert (V : forall rd p, p ∈ versions w rd -> p ∈ versions (World (publish cts a (past w)) (delete t (now w))) rd).
  { intros rd p Hp. rewrite versions_publish. destruct (writes a rd); [done|]. by right. }
  assert (NW : forall u b, delete t (now w) !! u = Some b -> u <> t /\ now w !! u = Some b).
  { intros u b Hb. apply lookup_delete_Some in Hb as [? ?]. done. }
  constructor; cbn [tx nid pg lk now].
  - intros u z. destruct (decide (u = t)) as [->|Hne].
    + intros _. by eapply D1.
    + rewrite lookup_insert_ne by done. apply D1.
  - intros u b Hb. destruct (NW u b Hb). rewrite lookup_insert_ne by done. by apply D2.
  - intros u z. destruct (decide (u = t)) as [->|Hne].
    + rewrite lookup_insert. by intros [= <-].
    + rewrite lookup_insert_ne, lookup_delete_ne by done. apply D3.
  - done.
  - intros u z i r O. destruct (decide (u = t)) as [->|Hne].
    + rewrite lookup_insert. intros [= <-]. cbn. by eapply D5.
    + rewrite lookup_insert_ne by done. by eapply D5.
  - intros u b rd Hb Hw. destruct (NW u b Hb). by apply D6.
  - intros rd m y b Hp Hb. destruct (NW _ b Hb). by eapply D7.
  - intros u z rd m y Hz Hsz Hin Hp Hc. destruct (decide (u = t)) as [->|Hne].
    + rewrite lookup_insert in Hz. injection Hz as <-. cbn in *. rewrite versions_publish.
      destruct (D2 t a Ha) as (x0 & Hx0 & _ & _ & _ & R4). assert (x0 = x) by congruence. subst x0.
      apply R4 in Hin. destruct (D6 t a rd Ha Hin) as (m1 & y1 & H1 & _ & _ & H4 & _).
      rewrite Hp in H1. injection H1 as <- <-. destruct (writes a rd) as [|v ws]; [done|]. cbn in H4.
      injection H4 as ->. by left.
    + rewrite lookup_insert_ne in Hz by done. apply V. by eapply D8.
  - intros rd m y Hp. destruct (D9 _ _ _ Hp) as (P1 & P2 & P3). split; [done|]. split; [|done]. intros c Hc. apply V. by apply P2.
  - done.
  - intros u z i g Hz Hg. assert (exists z0, tx st !! u = Some z0 /\ x_logs z0 !! i = Some g) as (z0 & Hz0 & Hg0).
    { destruct (decide (u = t)) as [->|Hne].
      - rewrite lookup_insert in Hz. injection Hz as <-. by exists x.
      - rewrite lookup_insert_ne in Hz by done. by exists z. }
    destruct (D11 _ _ _ _ Hz0 Hg0) as (rd & O & [S1 S2] & P & Q). exists rd. split; [done|]. split; [|done]. split.
    + intros b Hb. cbn in Hb. destruct (NW _ b Hb). auto.
    + intros c Hc. apply V. by apply S2.
Qed.

(** The stamping of one row. *)
Lemma dinv_stamp t x rd st w own : dinv st w own -> tx st !! t = Some x -> x_state x = Committed -> rd ∈ x_ws x ->
  dinv (stamp t (x_commit x) rd st) w own.
Proof.
  intros D Hx Hs Hin. unfold stamp. destruct (pg st !! rd) as [[m0 y0]|] eqn:Ep0.
  2: { replace (alter _ rd (pg st)) with (pg st); [by destruct st|]. apply map_eq. intros rd'.
       destruct (decide (rd' = rd)) as [->|]; [by rewrite lookup_alter, Ep0|by rewrite lookup_alter_ne]. }
  destruct D as [D1 D2 D3 D4 D5 D6 D7 D8 D9 D10 D11].
  set (pg' := alter _ rd (pg st)).
  assert (PG : forall rd' m y, pg' !! rd' = Some (m, y) ->
      pg st !! rd' = Some (m, y) \/ (rd' = rd /\ m_creator m0 = t /\ y = y0 /\ m = Meta t (Some (x_commit x)) (m_del m0) (m_idx m0))).
  { intros rd' m y. unfold pg'. destruct (decide (rd' = rd)) as [->|Hrd]; [|rewrite lookup_alter_ne by done; by left].
    rewrite lookup_alter, Ep0. cbn. destruct (N.eqb_spec (m_creator m0) t) as [E|_]; intros [= <- <-]; [right|by left].
    by rewrite E. }
  assert (NR : forall a, now w !! t <> Some a).
  { intros a Ha. destruct (D2 _ _ Ha) as (x0 & Hx0 & Hs0 & _). congruence. }
  constructor; cbn [tx nid pg lk]; eauto.
  - intros u a rd' Ha Hw. destruct (D6 u a rd' Ha Hw) as (m & y & H1 & H2 & H3 & H4 & H5). exists m, y. split; [|done].
    unfold pg'. destruct (decide (rd' = rd)) as [->|Hrd]; [|by rewrite lookup_alter_ne].
    rewrite lookup_alter, H1. cbn. destruct (N.eqb_spec (m_creator m) t) as [E|]; [|done].
    exfalso. rewrite H2 in E. rewrite E in Ha. exact (NR a Ha).
  - intros rd' m y a Hp Ha. destruct (PG _ _ _ Hp) as [Hp0|(-> & E & -> & ->)]; [by eapply D7|]. cbn in Ha. destruct (NR a Ha).
  - intros u z rd' m y Hz Hsz Hinz Hp Hc. destruct (PG _ _ _ Hp) as [Hp0|(-> & E & -> & ->)]; [by eapply D8|].
    cbn in Hc. subst u. assert (z = x) by congruence. subst z.
    change (shown (Meta t (Some (x_commit x)) (m_del m0) (m_idx m0)) y0) with (shown m0 y0). by eapply D8.
  - intros rd' m y Hp. destruct (PG _ _ _ Hp) as [Hp0|(-> & E & -> & ->)]; [by apply D9|]. cbn [m_creator m_ts m_idx].
    destruct (D9 _ _ _ Ep0) as (P1 & P2 & P3). rewrite E in *. split; [done|]. split; [|done]. intros c [= <-].
    change (shown (Meta t (Some (x_commit x)) (m_del m0) (m_idx m0)) y0) with (shown m0 y0). by eapply D8.
  - intros rd' l Hl. destruct (D10 _ _ Hl) as [O Hne]. split; [done|]. unfold pg'. destruct (decide (rd' = rd)) as [->|Hrd].
    + rewrite lookup_alter, Ep0. done.
    + by rewrite lookup_alter_ne.
Qed.

Lemma dinv_stamps t x l st w own : dinv st w own -> tx st !! t = Some x -> x_state x = Committed ->
  (forall rd, rd ∈ l -> rd ∈ x_ws x) -> dinv (foldr (stamp t (x_commit x)) st l) w own.
Proof.
  intros D Hx Hs. induction l as [|rd l IH]; intros Hl; [done|]. cbn [foldr].
  assert (E : tx (foldr (stamp t (x_commit x)) st l) = tx st).
  { clear. induction l as [|rd l IH]; [done|]. exact IH. }
  apply dinv_stamp; [|by rewrite E|done|apply Hl; by left]. apply IH. intros rd' Hrd'. apply Hl. by right.
Qed.

Lemma dinv_commit t st w own : dinv st w own -> let '(r, st') := commit t st in dinv st' (wstep w (OCommit t, r)) own.
Proof.
  intros D. unfold commit. destruct (running st t) as [x|] eqn:Er; [|done].
  pose proof (dinv_commit_start t st w own D) as H. unfold commit_start in *. rewrite Er in *. cbn [get_next_ts] in *.
  destruct H as [H1 H2]. rewrite H2. apply dinv_prune.
  match type of H1 with dinv ?s _ _ => set (st1 := s) in * end.
  set (x' := Txn (x_level x) Committed (x_read x) (wm_next (wk st)) (x_logs x) (x_ws x)).
  apply (dinv_stamps t x' _ st1); [done| |done|].
  - unfold st1. cbn. by rewrite lookup_insert.
  - intros rd. by rewrite elem_of_elements.
Qed.

(** Abort. *)
Lemma dinv_abort t st w own : dinv st w own -> let '(r, st') := abort t st in dinv st' (wstep w (OAbort t, r)) own.
Proof.
  intros D. unfold abort. destruct (running st t) as [x|] eqn:Er; [|done]. cbn [wstep]. apply dinv_prune.
  apply running_spec in Er as [Hx Hs]. destruct (d_now _ _ _ D t x Hx Hs) as [a Ha].
  pose proof (undo_fold t (elements (x_ws x)) st (NoDup_elements _)) as UF. cbn zeta in UF.
  set (st1 := foldr _ _ _) in *. destruct UF as (U1 & U2 & U3 & U4 & U5 & U6).
  destruct D as [D1 D2 D3 D4 D5 D6 D7 D8 D9 D10 D11].
  destruct (D2 t a Ha) as (x0 & Hx0 & _ & _ & _ & R4). assert (x0 = x) by congruence. subst x0.
  assert (NW : forall u b, delete t (now w) !! u = Some b -> u <> t /\ now w !! u = Some b).
  { intros u b Hb. apply lookup_delete_Some in Hb as [? ?]. done. }
  (* the rows after the rollback *)
  assert (PG : forall rd m y, pg st1 !! rd = Some (m, y) ->
      (rd ∉ x_ws x /\ pg st !! rd = Some (m, y)) \/
      (rd ∈ x_ws x /\ m_creator m = t /\ (m_ts m = None \/ exists i g, x_logs x !! i = Some g /\ own t i = Some rd /\
          m = Meta t (u_ts g) false (Some i) /\ y = u_tuple g) /\
          (forall i, m_idx m = Some i -> own t i = Some rd))).
  { intros rd m y Hp. destruct (decide (rd ∈ x_ws x)) as [Hin|Hni]; [right|left].
    2: { split; [done|]. destruct (U5 rd) as [<- _]; [by rewrite elem_of_elements|done]. }
    split; [done|]. destruct (U6 rd) as [E _]; [by rewrite elem_of_elements|]. rewrite E in Hp.
    pose proof Hin as Hw. apply R4 in Hw. destruct (D6 t a rd Ha Hw) as (m0 & y0 & H1 & H2 & H3 & H4 & H5).
    unfold undo_row in Hp. destruct (lk st !! rd) as [l|] eqn:El.
    - specialize (H5 l eq_refl). destruct (D10 _ _ El) as [O _]. destruct (get_log (tx st) l) as [g|] eqn:Eg.
      + cbn in Hp. rewrite lookup_alter, H1 in Hp. cbn in Hp. injection Hp as <- <-. cbn. split; [done|].
        unfold get_log in Eg. rewrite H5, Hx in Eg. rewrite H5 in *. split.
        * right. exists l.2, g. done.
        * by intros i [= <-].
      + rewrite H1 in Hp. injection Hp as <- <-. split; [done|]. split; [by left|].
        destruct (D9 _ _ _ H1) as (_ & _ & P3). by rewrite H2 in P3.
    - cbn in Hp. rewrite lookup_alter, H1 in Hp. cbn in Hp. injection Hp as <- <-. cbn. split; [done|]. split; [by left|done]. }
  assert (LK : forall rd l, lk st1 !! rd = Some l -> own l.1 l.2 = Some rd /\ pg st1 !! rd <> None).
  { intros rd l Hl. destruct (decide (rd ∈ x_ws x)) as [Hin|Hni].
    2: { destruct (U5 rd) as [E1 E2]; [by rewrite elem_of_elements|]. rewrite E1. rewrite E2 in Hl. by apply D10. }
    destruct (U6 rd) as [E1 E2]; [by rewrite elem_of_elements|]. rewrite E1. rewrite E2 in Hl.
    pose proof Hin as Hw. apply R4 in Hw. destruct (D6 t a rd Ha Hw) as (m0 & y0 & H1 & _).
    unfold undo_row in *. destruct (lk st !! rd) as [l0|] eqn:El.
    - destruct (D10 _ _ El) as [O _]. destruct (get_log (tx st) l0) as [g|] eqn:Eg.
      + cbn in *. rewrite lookup_alter, H1. split; [|done]. unfold get_log in Eg. destruct (tx st !! l0.1) as [z|] eqn:Ez; [|done].
        destruct (D11 _ _ _ _ Ez Eg) as (rd2 & O2 & _ & _ & Q). rewrite O in O2. injection O2 as <-. apply Q.
        destruct (prev_link g) as [l2|]; [by rewrite lookup_insert in Hl|by rewrite lookup_delete in Hl].
      + split; [|by rewrite H1]. apply D10. done.
    - cbn in Hl. congruence. }
  constructor; cbn [tx nid pg lk now]; rewrite ?U1, ?U2.
  - intros u z. destruct (decide (u = t)) as [->|Hne].
    + intros _. by eapply D1.
    + rewrite lookup_insert_ne by done. apply D1.
  - intros u b Hb. destruct (NW u b Hb). rewrite lookup_insert_ne by done. by apply D2.
  - intros u z. destruct (decide (u = t)) as [->|Hne].
    + rewrite lookup_insert. by intros [= <-].
    + rewrite lookup_insert_ne, lookup_delete_ne by done. apply D3.
  - done.
  - intros u z i r O. destruct (decide (u = t)) as [->|Hne].
    + rewrite lookup_insert. intros [= <-]. cbn. by eapply D5.
    + rewrite lookup_insert_ne by done. by eapply D5.
  - intros u b rd Hb Hw. destruct (NW u b Hb) as [Hne Hb0]. destruct (D6 u b rd Hb0 Hw) as (m & y & H1 & H2 & H3 & H4 & H5).
    assert (Hni : rd ∉ x_ws x).
    { intros Hin. apply R4 in Hin. destruct (D6 t a rd Ha Hin) as (m1 & y1 & G1 & G2 & _). congruence. }
    destruct (U5 rd) as [E1 E2]; [by rewrite elem_of_elements|]. rewrite E1, E2. by exists m, y.
  - intros rd m y b Hp Hb. destruct (NW _ b Hb) as [Hne Hb0]. destruct (PG _ _ _ Hp) as [[_ Hp0]|(_ & E & _)]; [|done].
    by eapply D7.
  - intros u z rd m y Hz Hsz Hin Hp Hc. destruct (decide (u = t)) as [->|Hne].
    { rewrite lookup_insert in Hz. by injection Hz as <-. }
    rewrite lookup_insert_ne in Hz by done. destruct (PG _ _ _ Hp) as [[_ Hp0]|(_ & E & _)]; [|congruence].
    by eapply (D8 u z rd m y).
  - intros rd m y Hp. destruct (PG _ _ _ Hp) as [[_ Hp0]|(_ & E & M & I)]; [by apply D9|]. rewrite E.
    split; [by eapply D1|]. split; [|done]. intros c Hc. destruct M as [M|(i & g & Hg & O & -> & ->)]; [congruence|].
    cbn in *. destruct (D11 _ _ _ _ Hx Hg) as (rd2 & O2 & [_ S2] & _). rewrite O in O2. injection O2 as <-. by apply S2.
  - done.
  - intros u z i g Hz Hg. assert (exists z0, tx st !! u = Some z0 /\ x_logs z0 !! i = Some g) as (z0 & Hz0 & Hg0).
    { destruct (decide (u = t)) as [->|Hne].
      - rewrite lookup_insert in Hz. injection Hz as <-. by exists x.
      - rewrite lookup_insert_ne in Hz by done. by exists z. }
    destruct (D11 _ _ _ _ Hz0 Hg0) as (rd & O & [S1 S2] & P & Q). exists rd. split; [done|]. split; [|done]. split; [|done].
    intros b Hb. cbn in Hb. destruct (NW _ b Hb). auto.
Qed.

(** ** Histories *)
Lemma mstep_dinv st w own o : dinv st w own -> honest o ->
  let '(r, st') := mstep o st in exists own', dinv st' (wstep w (o, r)) own'.
Proof.
  intros D Hh. destruct o as [i|t rd y|t c rd y|t rd|t rd|t|t| |t|t rd|]; cbn [mstep]; cbn [honest] in Hh.
  - pose proof (dinv_begin i st w own D) as H. destruct (begin i st). eauto.
  - pose proof (dinv_insert t rd y st w own D) as H. destruct (insert t rd y st). eauto.
  - subst c. unfold update. destruct (running st t) as [x|] eqn:Er; [|eauto].
    destruct (pg st !! rd) as [[m old]|] eqn:Ep; [|eauto]. destruct (m_del m) eqn:Ed; [eauto|].
    destruct (negb (m_creator m =? t) && negb (committed m)) eqn:Ec; [eauto|]. cbn [wstep].
    apply running_spec in Er as [Hx Hs]. destruct (d_now _ _ _ D t x Hx Hs) as [a Ha].
    eapply (dinv_overwrite t x a rd m old y false); eauto.
    apply andb_false_iff in Ec as [Ec|Ec]; [left; lia|right]. apply committed_ts. by destruct (committed m).
  - unfold delete_row. destruct (running st t) as [x|] eqn:Er; [|eauto].
    destruct (pg st !! rd) as [[m old]|] eqn:Ep; [|eauto]. destruct (m_del m) eqn:Ed; [eauto|].
    destruct (negb (m_creator m =? t) && negb (committed m)) eqn:Ec; [eauto|]. cbn [wstep].
    apply running_spec in Er as [Hx Hs]. destruct (d_now _ _ _ D t x Hx Hs) as [a Ha].
    eapply (dinv_overwrite t x a rd m old old true); eauto.
    apply andb_false_iff in Ec as [Ec|Ec]; [left; lia|right]. apply committed_ts. by destruct (committed m).
  - eauto.
  - pose proof (dinv_commit t st w own D) as H. destruct (commit t st). eauto.
  - pose proof (dinv_abort t st w own D) as H. destruct (abort t st). eauto.
  - exists own. cbn [wstep]. by apply dinv_gc.
  - pose proof (dinv_commit_start t st w own D) as H. destruct (commit_start t st) as [r st']. destruct H as [H _]. eauto.
  - destruct (tx st !! t) as [x|] eqn:Hx; [|by exists own]. destruct (x_state x) eqn:Hs; try by exists own.
    case_bool_decide; [|by exists own]. exists own. cbn [wstep]. by apply dinv_stamp.
  - exists own. cbn [wstep]. by apply dinv_prune.
Qed.

Lemma mrun_dinv ops : forall st w own rs st', dinv st w own -> mrun st ops = (rs, st') -> Forall honest ops ->
  exists own', dinv st' (fold_left wstep (zip ops rs) w) own'.
Proof.
  induction ops as [|o ops IH]; intros st w own rs st' D Hrun Hh; cbn [mrun] in *.
  - injection Hrun as <- <-. by exists own.
  - destruct (mstep o st) as [r st1] eqn:E1. destruct (mrun st1 ops) as [rs2 st2] eqn:E2. injection Hrun as <- <-.
    inversion Hh as [|? ? H1 H2]; subst. cbn [zip zip_with fold_left].
    pose proof (mstep_dinv st w own o D H1) as S. rewrite E1 in S. destruct S as [own1 S].
    exact (IH st1 _ own1 rs2 st2 S E2 H2).
Qed.

Lemma history_dinv ops rs st : mrun mv_init ops = (rs, st) -> Forall honest ops ->
  exists own, dinv st (world_after ops rs) own.
Proof. intros R H. by eapply (mrun_dinv ops mv_init world0); [apply dinv_init|..]. Qed.

(** While a transaction runs its accepted writes and the committed versions only grow. *)
Lemma wstep_keeps st w own o t a r st' : dinv st w own -> mstep o st = (r, st') -> now w !! t = Some a ->
  now (wstep w (o, r)) !! t = None \/
  exists a', now (wstep w (o, r)) !! t = Some a' /\ a_snap a' = a_snap a /\ a_level a' = a_level a /\
    (forall rd v, v ∈ writes a rd -> v ∈ writes a' rd).
Proof.
  intros D Hm Ha.
  assert (Add : forall u rd v, now (add_write u rd v w) !! t = None \/
    exists a', now (add_write u rd v w) !! t = Some a' /\ a_snap a' = a_snap a /\ a_level a' = a_level a /\
    (forall rd v, v ∈ writes a rd -> v ∈ writes a' rd)).
  { intros u rd v. right. cbn. destruct (decide (t = u)) as [<-|Hne].
    - rewrite lookup_alter, Ha. eexists. split; [done|]. cbn. do 2 (split; [done|]). intros rd' v' Hv. unfold writes in *. cbn.
      destruct (decide (rd' = rd)) as [->|Hrd]; [|by rewrite lookup_insert_ne].
      rewrite lookup_insert. cbn. by right.
    - rewrite lookup_alter_ne by done. eauto 10. }
  assert (Same : now w !! t = None \/ exists a', now w !! t = Some a' /\ a_snap a' = a_snap a /\ a_level a' = a_level a /\
    (forall rd v, v ∈ writes a rd -> v ∈ writes a' rd)) by eauto 10.
  assert (Fin : forall u p, now (World p (delete u (now w))) !! t = None \/
    exists a', now (World p (delete u (now w))) !! t = Some a' /\ a_snap a' = a_snap a /\ a_level a' = a_level a /\
    (forall rd v, v ∈ writes a rd -> v ∈ writes a' rd)).
  { intros u p. cbn. destruct (decide (t = u)) as [<-|Hne]; [left; by rewrite lookup_delete|].
    rewrite lookup_delete_ne by done. exact Same. }
  assert (FC : forall u c, now (finish_commit u c w) !! t = None \/
    exists a', now (finish_commit u c w) !! t = Some a' /\ a_snap a' = a_snap a /\ a_level a' = a_level a /\
    (forall rd v, v ∈ writes a rd -> v ∈ writes a' rd)).
  { intros u c. unfold finish_commit. destruct (now w !! u); [apply Fin|exact Same]. }
  destruct o as [i|u rd y|u c rd y|u rd|u rd|u|u| |u|u rd|]; destruct r as [n ts| | |v|c0]; cbn [wstep];
    try exact Same; try apply Add; try apply Fin; try apply FC.
  right. cbn [mstep] in Hm. unfold begin in Hm. destruct (get_next_ts_and_register (wk st)) as [w1 ts1].
  injection Hm as <- <- <-. cbn. destruct (d_run _ _ _ D t a Ha) as (x & Hx & _).
  pose proof (d_ids _ _ _ D _ _ Hx). rewrite lookup_insert_ne by lia. eauto 10.
Qed.

Lemma wstep_versions w e rd p : p ∈ versions w rd -> p ∈ versions (wstep w e) rd.
Proof.
  assert (FC : forall u c, p ∈ versions w rd -> p ∈ versions (finish_commit u c w) rd).
  { intros u c Hp. unfold finish_commit. destruct (now w !! u) as [a|]; [|done]. rewrite versions_publish.
    destruct (writes a rd); [done|]. by right. }
  intros Hp. destruct e as [o r]. destruct o, r; cbn [wstep]; auto.
Qed.

Lemma mstep_nid o st r st' : mstep o st = (r, st') -> nid st <= nid st'.
Proof.
  intros Hm. destruct o as [i|u rd y|u c rd y|u rd|u rd|u|u| |u|u rd|]; cbn [mstep] in Hm.
    - unfold begin in Hm. destruct (get_next_ts_and_register (wk st)). injection Hm as <- <-. cbn. lia.
    - unfold insert in Hm. destruct (running st u); [destruct (pg st !! rd)|]; injection Hm as <- <-; cbn; lia.
    - unfold update in Hm. destruct (running st u); [destruct (pg st !! rd) as [[m y0]|]; [destruct (m_del m); [|destruct (_ && _)]|]|];
        injection Hm as <- <-; cbn; lia.
    - unfold delete_row in Hm. destruct (running st u); [destruct (pg st !! rd) as [[m y0]|]; [destruct (m_del m); [|destruct (_ && _)]|]|];
        injection Hm as <- <-; cbn; lia.
    - injection Hm as <- <-. lia.
    - unfold commit, commit_start in Hm. destruct (running st u) as [x|]; [|injection Hm as <- <-; lia].
      cbn [get_next_ts] in Hm. injection Hm as <- <-. cbn.
      match goal with |- context [foldr ?f ?s ?l] => assert (nid (foldr f s l) = nid s) as -> end; [|cbn; lia].
      generalize (elements (x_ws x)). induction l as [|? ? IH]; [done|]. exact IH.
    - unfold abort in Hm. destruct (running st u) as [x|]; [|injection Hm as <- <-; lia]. injection Hm as <- <-. cbn.
      destruct (undo_fold u (elements (x_ws x)) st (NoDup_elements _)) as (_ & -> & _). lia.
    - injection Hm as <- <-. cbn. lia.
    - unfold commit_start in Hm. destruct (running st u) as [x|]; cbn [get_next_ts] in Hm; injection Hm as <- <-; cbn; lia.
    - destruct (tx st !! u) as [x|]; [|injection Hm as <- <-; lia]. destruct (x_state x); try (injection Hm as <- <-; lia).
      case_bool_decide; injection Hm as <- <-; cbn; lia.
    - injection Hm as <- <-. cbn. lia.
Qed.

(** A finished transaction does not come back. *)
Lemma wstep_no_return w o t r st st' : mstep o st = (r, st') -> t < nid st ->
  now w !! t = None -> now (wstep w (o, r)) !! t = None.
Proof.
  intros Hm Ht Hn.
  assert (A : forall u rd v, now (add_write u rd v w) !! t = None).
  { intros u rd v. cbn. destruct (decide (t = u)) as [<-|Hne]; [by rewrite lookup_alter, Hn|by rewrite lookup_alter_ne]. }
  assert (F : forall u, delete u (now w) !! t = None).
  { intros u. destruct (decide (t = u)) as [<-|Hne]; [by rewrite lookup_delete|by rewrite lookup_delete_ne]. }
  assert (FC : forall u c, now (finish_commit u c w) !! t = None).
  { intros u c. unfold finish_commit. destruct (now w !! u); [apply F|done]. }
  destruct o as [i|u rd y|u c rd y|u rd|u rd|u|u| |u|u rd|]; destruct r as [n ts| | |v|c0]; cbn [wstep];
    try exact Hn; try apply A; try apply F; try apply FC.
  cbn [mstep] in Hm. unfold begin in Hm. destruct (get_next_ts_and_register (wk st)) as [w1 ts1].
  injection Hm as <- <- <-. cbn. by rewrite lookup_insert_ne by lia.
Qed.

Lemma mrun_no_return ops : forall st w rs st' t, mrun st ops = (rs, st') -> t < nid st -> now w !! t = None ->
  now (fold_left wstep (zip ops rs) w) !! t = None.
Proof.
  induction ops as [|o ops IH]; intros st w rs st' t Hrun Ht Hn; cbn [mrun] in *.
  - by injection Hrun as <- <-.
  - destruct (mstep o st) as [r st1] eqn:E1. destruct (mrun st1 ops) as [rs2 st2] eqn:E2. injection Hrun as <- <-.
    cbn [zip zip_with fold_left]. pose proof (mstep_nid _ _ _ _ E1). eapply IH; [exact E2|lia|].
    by eapply wstep_no_return.
Qed.

(** So what was read from a page earlier is still legitimate. *)
Lemma mrun_keeps ops : forall st w own rs st' t rd a p, dinv st w own -> mrun st ops = (rs, st') -> Forall honest ops ->
  now w !! t = Some a -> page_legit w rd t a p ->
  forall a', now (fold_left wstep (zip ops rs) w) !! t = Some a' ->
    page_legit (fold_left wstep (zip ops rs) w) rd t a' p /\ a_snap a' = a_snap a /\ a_level a' = a_level a /\
    (forall rd v, v ∈ writes a rd -> v ∈ writes a' rd).
Proof.
  induction ops as [|o ops IH]; intros st w own rs st' t rd a p D Hrun Hh Ha HP a' Ha'; cbn [mrun] in *.
  - injection Hrun as <- <-. cbn in Ha'. assert (a' = a) by congruence. subst. done.
  - destruct (mstep o st) as [r st1] eqn:E1. destruct (mrun st1 ops) as [rs2 st2] eqn:E2. injection Hrun as <- <-.
    inversion Hh as [|? ? H1 H2]; subst. cbn [zip zip_with fold_left] in *.
    pose proof (mstep_dinv st w own o D H1) as S. rewrite E1 in S. destruct S as [own1 S].
    destruct (wstep_keeps st w own o t a r st1 D E1 Ha) as [N|(a1 & A1 & A2 & A3 & A4)].
    + exfalso. destruct (d_run _ _ _ D t a Ha) as (x & Hx & _). pose proof (d_ids _ _ _ D _ _ Hx) as Ht.
      pose proof (mstep_nid _ _ _ _ E1). rewrite (mrun_no_return ops st1 _ rs2 st2 t E2 ltac:(lia) N) in Ha'. done.
    + destruct HP as [P1 P2].
      destruct (IH st1 _ own1 rs2 st2 t rd a1 p S E2 H2 A1) with (a' := a') as (Q1 & Q2 & Q3 & Q4); [|exact Ha'|].
      * split; [intros E; apply A4; auto|intros c Hc; apply wstep_versions; auto].
      * split; [exact Q1|]. split; [congruence|]. split; [congruence|]. intros rd' v Hv. apply Q4, A4, Hv.
Qed.
