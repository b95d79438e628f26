(** * Deciding the hypotheses of the MVCC theorems on concrete histories *)
From stdpp Require Import gmap list.
From Coq Require Import NArith Lia ZifyBool ZifyNat ZifyN.
From Verif Require Import MvccModel MvccSpec.
Local Open Scope N_scope.

Definition clean_abortb (w : world) (a : active) : bool :=
  forallb (fun p => match p.2 with
                    | [] => true
                    | [_] => match versions w p.1 with (c, _) :: _ => N.leb c (a_snap a) | [] => true end
                    | _ => false
                    end) (map_to_list (a_writes a)).

Lemma clean_abortb_ok w a : clean_abortb w a = true -> clean_abort w a.
Proof.
  unfold clean_abortb, clean_abort. rewrite forallb_forall. intros H rd Hw.
  unfold writes in *. destruct (a_writes a !! rd) as [ws|] eqn:E; [|done]. cbn in *.
  specialize (H (rd, ws)). cbn [fst snd] in H. rewrite <- elem_of_list_In, elem_of_map_to_list in H. specialize (H E).
  destruct ws as [|v [|v2 ws]]; try done. split; [done|]. intros c v0 vs Ev. rewrite Ev in H. lia.
Qed.

Definition calmb (w : world) (o : mop) : bool :=
  match o with
  | OUpdate t c _ _ => N.eqb c t
  | OAbort t => match now w !! t with Some a => clean_abortb w a | None => true end
  | OGc | OCommitStart _ | OStamp _ _ => false
  | _ => true
  end.

Lemma calmb_ok w o : calmb w o = true -> calm w o.
Proof.
  destruct o as [i|t rd y|t c rd y|t rd|t rd|t|t| |t|t rd|]; cbn; try done; try lia.
  intros H a Ha. rewrite Ha in H. by apply clean_abortb_ok.
Qed.

Fixpoint calm_historyb (w : world) (tr : list (mop * mres)) : bool :=
  match tr with
  | [] => true
  | e :: tr => calmb w e.1 && calm_historyb (wstep w e) tr
  end.

Lemma calm_historyb_ok tr : forall w, calm_historyb w tr = true -> calm_history w tr.
Proof.
  induction tr as [|e tr IH]; intros w; cbn; [done|]. rewrite andb_true_iff. intros [H1 H2]. split; [by apply calmb_ok|auto].
Qed.

Definition honestb (o : mop) : bool := match o with OUpdate t c _ _ => N.eqb c t | _ => true end.

Lemma honestb_ok ops : forallb honestb ops = true -> Forall honest ops.
Proof.
  rewrite forallb_forall. intros H. apply Forall_forall. intros o Ho. apply elem_of_list_In in Ho. specialize (H o Ho).
  destruct o; try done. cbn in *. lia.
Qed.

Definition only_active (w : world) (t : N) : bool := forallb (fun p => N.eqb p.1 t) (map_to_list (now w)).

Lemma only_active_ok w t : only_active w t = true -> forall u a, now w !! u = Some a -> u = t.
Proof.
  unfold only_active. rewrite forallb_forall. intros H u a Hu. specialize (H (u, a)).
  rewrite <- elem_of_list_In, elem_of_map_to_list in H. specialize (H Hu). cbn in H. lia.
Qed.

Definition there (w : world) (t : N) : active := default (Act LSnap 0 ∅) (now w !! t).

Lemma there_ok w t : (if now w !! t then true else false) = true -> now w !! t = Some (there w t).
Proof. unfold there. destruct (now w !! t); done. Qed.
