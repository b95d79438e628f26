(** * Proofs about UPDATE and DELETE statements *)
From stdpp Require Import gmap list.
From Coq Require Import NArith Lia ZifyBool ZifyNat ZifyN.
From Verif Require Import WatermarkModel WatermarkProofs MvccModel MvccSpec MvccRowProofs MvccProofs UpdSpec UpdModel.
Local Open Scope N_scope.

Lemma write_seen t rd v w a : now w !! t = Some a ->
  exists a', now (add_write t rd v w) !! t = Some a' /\ a_level a' = a_level a /\
    (forall rd', seen (add_write t rd v w) a' rd' = if decide (rd' = rd) then v else seen w a rd') /\
    (forall u, u <> t -> now (add_write t rd v w) !! u = now w !! u) /\
    (forall b rd', seen (add_write t rd v w) b rd' = seen w b rd').
Proof.
  intros Ha. exists (Act (a_level a) (a_snap a) (<[rd := v :: writes a rd]> (a_writes a))).
  cbn [now add_write]. split; [by rewrite lookup_alter, Ha|]. split; [done|]. split; [|split].
  - intros rd'. unfold seen. rewrite versions_add. unfold writes at 1. cbn [a_writes a_snap].
    case_decide as E; [subst rd'; by rewrite lookup_insert|]. by rewrite lookup_insert_ne by congruence.
  - intros u U. by rewrite lookup_alter_ne by congruence.
  - intros b rd'. unfold seen. by rewrite versions_add.
Qed.

(** An uncommitted row that is not deleted belongs to a running transaction. *)
Lemma uncommitted_owner st w rd m y : inv st w -> pg st !! rd = Some (m, y) -> m_del m = false -> m_ts m = None ->
  exists a, now w !! m_creator m = Some a.
Proof.
  intros HI Hp Hd Ht. pose proof (i_rows _ _ HI rd) as H. unfold row_inv in H. rewrite Hp in H. cbn [fst snd] in H.
  destruct H as (L & _ & _ & _ & _ & _ & [(ws & W & _)|[(c & vs & C & _)|(D & _)]]); [|congruence|congruence].
  unfold wrs in W. destruct (now w !! m_creator m) as [a|]; [by exists a|done].
Qed.

Lemma sql_update_inv t rd y st w st' a : inv st w -> now w !! t = Some a -> (now w !! 0 = None \/ t = 0) ->
  update t 0 rd y st = (ROk, st') -> inv st' (add_write t rd (Some y) w).
Proof.
  intros HI Ha Z E. unfold update in E. destruct (running st t) as [x|] eqn:Er; [|done].
  destruct (pg st !! rd) as [[m old]|] eqn:Ep; [|done]. destruct (m_del m) eqn:Ed; [done|].
  destruct (negb (m_creator m =? 0) && negb (committed m)) eqn:Ec; [done|]. injection E as <-.
  apply running_spec in Er as [Hx Hs].
  apply (overwrite_inv t x rd m old y false) with (a := a); [done..|].
  destruct (m_ts m) as [c|] eqn:Et; [by right|]. left.
  assert (committed m = false) as Cf by (unfold committed; by rewrite Et). rewrite Cf in Ec.
  destruct (uncommitted_owner st w rd m old HI Ep Ed Et) as [b Hb].
  destruct (m_creator m =? 0) eqn:M; [|done]. apply N.eqb_eq in M. rewrite M in *. destruct Z as [Z|Z]; congruence.
Qed.
Lemma sql_delete_inv t rd st w st' a : inv st w -> now w !! t = Some a ->
  delete_row t rd st = (ROk, st') -> inv st' (add_write t rd None w).
Proof.
  intros HI Ha E. pose proof (delete_inv t rd st w HI) as H. rewrite E in H. by destruct H.
Qed.

Lemma matching_ext pick g h slots : (forall rd, rd ∈ slots -> g rd = h rd) -> matching pick g slots = matching pick h slots.
Proof.
  induction slots as [|rd slots IH]; intros H; [done|]. cbn [matching List.filter].
  rewrite (H rd) by by left. fold (matching pick g slots) (matching pick h slots). rewrite IH; [done|].
  intros r R. apply H. by right.
Qed.
Lemma matching_cons pick g rd slots : matching pick g (rd :: slots) =
  if (match g rd with Some y => pick y | None => false end) then rd :: matching pick g slots else matching pick g slots.
Proof. done. Qed.

Section Scan.
Context (t : N) (pick : tuple -> bool).

Record outcome (w w' : world) (a a' : active) (slots : list rid) (g : option tuple -> option tuple) : Prop := Outcome {
  oc_now : now w' !! t = Some a';
  oc_level : a_level a' = a_level a;
  oc_seen : forall rd, seen w' a' rd = if decide (rd ∈ slots) then g (seen w a rd) else seen w a rd;
  oc_rest : forall u, u <> t -> now w' !! u = now w !! u;
  oc_old : forall b rd, seen w' b rd = seen w b rd }.

Lemma outcome_skip w w' a a' rd slots g : outcome w w' a a' slots g -> rd ∉ slots -> g (seen w a rd) = seen w a rd ->
  outcome w w' a a' (rd :: slots) g.
Proof.
  intros [A B C D E] N G. constructor; [done|done| |done|done].
  intros r. rewrite C. destruct (decide (r ∈ slots)) as [X|X].
  - by rewrite (decide_True (P := r ∈ rd :: slots)) by by right.
  - destruct (decide (r = rd)) as [->|Y].
    + by rewrite (decide_True (P := rd ∈ rd :: slots)) by by left.
    + rewrite (decide_False (P := r ∈ rd :: slots)); [done|]. by intros [?|?]%elem_of_cons.
Qed.
Lemma outcome_write w w1 w' a a1 a' rd v slots g : w1 = add_write t rd v w -> now w1 !! t = Some a1 -> now w !! t = Some a ->
  outcome w1 w' a1 a' slots g -> rd ∉ slots -> g (seen w a rd) = v -> outcome w w' a a' (rd :: slots) g.
Proof.
  intros -> A1 A0 [A B C D E] N G. destruct (write_seen t rd v w a A0) as (a2 & X1 & X2 & X3 & X4 & X5).
  assert (a2 = a1) as -> by congruence. constructor; [done|by rewrite B| | |].
  - intros r. rewrite C, !X3. destruct (decide (r = rd)) as [->|R].
    + rewrite (decide_False (P := rd ∈ slots)) by done. rewrite (decide_True (P := rd ∈ rd :: slots)) by by left. done.
    + destruct (decide (r ∈ slots)) as [S1|S1].
      * by rewrite (decide_True (P := r ∈ rd :: slots)) by by right.
      * rewrite (decide_False (P := r ∈ rd :: slots)); [done|]. by intros [?|?]%elem_of_cons.
  - intros u U. rewrite D by done. by apply X4.
  - intros b r. by rewrite E, X5.
Qed.

Lemma update_scan_ok f slots : forall n k st st' w a, update_scan t pick f slots n st = (Some k, st') ->
  inv st w -> now w !! t = Some a -> snapshot_level (a_level a) -> (now w !! 0 = None \/ t = 0) -> NoDup slots ->
  exists w' a', inv st' w' /\ outcome w w' a a' slots (updated pick f) /\
    k = (n + length (matching pick (seen w a) slots))%nat /\
    (forall rd y, rd ∈ slots -> seen w a rd = Some y -> pick y = true -> exists y', f y = Some y').
Proof.
  induction slots as [|rd slots IH]; intros n k st st' w a E HI Ha Hl Z ND; cbn [update_scan] in E.
  - injection E as <- <-. exists w, a. split; [done|]. split.
    + constructor; [done|done| |done|done]. intros rd. rewrite decide_False; [done|apply not_elem_of_nil].
    + split; [cbn; lia|]. intros rd y R. by apply elem_of_nil in R.
  - apply NoDup_cons in ND as [N ND]. pose proof (inv_read st w t a rd HI Ha Hl) as R. rewrite R in E. rewrite matching_cons.
    destruct (seen w a rd) as [y|] eqn:Sy.
    + destruct (pick y) eqn:P.
      * destruct (f y) as [y'|] eqn:F; [|done].
        destruct (update t 0 rd y' st) as [r st1] eqn:U. destruct r; try done.
        pose proof (sql_update_inv t rd y' st w st1 a HI Ha Z U) as I1.
        destruct (write_seen t rd (Some y') w a Ha) as (a1 & X1 & X2 & X3 & X4 & X5).
        destruct (IH (S n) k st1 st' _ a1 E I1 X1) as (w' & a' & I' & O & K & G); [by rewrite X2| |done|].
        { destruct (decide (t = 0)); [by right|]. left. rewrite X4 by done. destruct Z; [done|lia]. }
        exists w', a'. split; [done|]. split; [|split].
        -- eapply outcome_write; [reflexivity|exact X1|exact Ha|exact O|done|]. rewrite Sy. cbn. by rewrite P, F.
        -- cbn [length]. rewrite K. rewrite (matching_ext pick _ (seen w a)); [lia|].
           intros r Rin. rewrite X3, decide_False; [done|]. by intros ->.
        -- intros r z Rin Sz Pz. apply elem_of_cons in Rin as [->|Rin]; [exists y'; congruence|].
           apply (G r z); [done| |done]. rewrite X3, decide_False; [done|]. by intros ->.
      * destruct (IH n k st st' w a E HI Ha Hl Z ND) as (w' & a' & I' & O & K & G). exists w', a'. split; [done|].
        split; [|split; [done|]].
        -- apply outcome_skip; [done|done|]. rewrite Sy. cbn. by rewrite P.
        -- intros r z Rin Sz Pz. apply elem_of_cons in Rin as [->|Rin]; [congruence|by apply (G r z)].
    + destruct (IH n k st st' w a E HI Ha Hl Z ND) as (w' & a' & I' & O & K & G). exists w', a'. split; [done|].
      split; [|split; [done|]].
      -- apply outcome_skip; [done|done|]. by rewrite Sy.
      -- intros r z Rin Sz Pz. apply elem_of_cons in Rin as [->|Rin]; [congruence|by apply (G r z)].
Qed.

Lemma delete_scan_ok slots : forall n k st st' w a, delete_scan t pick slots n st = (Some k, st') ->
  inv st w -> now w !! t = Some a -> snapshot_level (a_level a) -> NoDup slots ->
  exists w' a', inv st' w' /\ outcome w w' a a' slots (remaining pick) /\
    k = (n + length (matching pick (seen w a) slots))%nat.
Proof.
  induction slots as [|rd slots IH]; intros n k st st' w a E HI Ha Hl ND; cbn [delete_scan] in E.
  - injection E as <- <-. exists w, a. split; [done|]. split.
    + constructor; [done|done| |done|done]. intros rd. rewrite decide_False; [done|apply not_elem_of_nil].
    + cbn; lia.
  - apply NoDup_cons in ND as [N ND]. pose proof (inv_read st w t a rd HI Ha Hl) as R. rewrite R in E. rewrite matching_cons.
    destruct (seen w a rd) as [y|] eqn:Sy.
    + destruct (pick y) eqn:P.
      * destruct (delete_row t rd st) as [r st1] eqn:U. destruct r; try done.
        pose proof (sql_delete_inv t rd st w st1 a HI Ha U) as I1.
        destruct (write_seen t rd None w a Ha) as (a1 & X1 & X2 & X3 & X4 & X5).
        destruct (IH (S n) k st1 st' _ a1 E I1 X1) as (w' & a' & I' & O & K); [by rewrite X2|done|].
        exists w', a'. split; [done|]. split.
        -- eapply outcome_write; [reflexivity|exact X1|exact Ha|exact O|done|]. rewrite Sy. cbn. by rewrite P.
        -- cbn [length]. rewrite K. rewrite (matching_ext pick _ (seen w a)); [lia|].
           intros r Rin. rewrite X3, decide_False; [done|]. by intros ->.
      * destruct (IH n k st st' w a E HI Ha Hl ND) as (w' & a' & I' & O & K). exists w', a'. split; [done|].
        split; [|done]. apply outcome_skip; [done|done|]. rewrite Sy. cbn. by rewrite P.
    + destruct (IH n k st st' w a E HI Ha Hl ND) as (w' & a' & I' & O & K). exists w', a'. split; [done|].
      split; [|done]. apply outcome_skip; [done|done|]. by rewrite Sy.
Qed.
End Scan.
