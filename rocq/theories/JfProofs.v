(** * Proofs about field access *)
From Coq Require Import ZArith NArith Lia.
From stdpp Require Import list.
From Verif Require Import CastSpec CastModel ArrSpec ArrModel JfSpec JfModel.
Local Open Scope Z_scope.

Lemma in_range_big z : in_range TBig z = true <-> fits TBig z.
Proof. unfold in_range, fits. cbn. rewrite andb_true_iff, !Z.leb_le. lia. Qed.
Lemma usize_id i : 0 <= i -> fits TBig i -> usize i = i.
Proof. unfold usize, fits. cbn. intros H [_ H2]. apply Z.mod_small. lia. Qed.
Lemma usize_neg i : i < 0 -> fits TBig i -> usize i = i + 2 ^ 64.
Proof.
  unfold usize, fits. cbn. intros H [H2 _]. symmetry. apply (Z.mod_unique_pos i (2 ^ 64) (-1)); lia.
Qed.
Lemma nth_checked_pos {A} (l : list A) i : 0 <= i -> fits TBig i -> nth_checked l i = l !! Z.to_nat i.
Proof.
  intros H Hf. unfold nth_checked. rewrite usize_id by easy.
  destruct (Z.leb_spec (Z.of_nat (length l)) i); [|easy]. symmetry. apply lookup_ge_None_2. lia.
Qed.
Lemma nth_checked_neg {A} (l : list A) i : i < 0 -> fits TBig i -> short l -> nth_checked l i = None.
Proof.
  intros H Hf Hs. unfold nth_checked. rewrite usize_neg by easy. unfold short in Hs. unfold fits in Hf. cbn in Hf.
  destruct (Z.leb_spec (Z.of_nat (length l)) (i + 2 ^ 64)); [easy|]. lia.
Qed.

Lemma within_refl j : within j j.
Proof. exists []. easy. Qed.
Lemma at_path_app p q j : at_path (p ++ q) j = match at_path p j with Some j => at_path q j | None => None end.
Proof. revert j. induction p as [|k p IH]; intro j; [easy|]. cbn [at_path app]. destruct (step k j); [apply IH | easy]. Qed.
Lemma within_step k j j' x : step k j = Some j' -> within x j' -> within x j.
Proof. intros H [p Hp]. exists (k :: p). cbn [at_path]. rewrite H. exact Hp. Qed.

Section P.
Context (reads : text -> option json) (writes : list (text * json) -> text).
Notation jtv := (json_to_value writes).
Definition back (j : json) : Prop := forall o, within (JObj o) j -> reads (writes o) = Some (JObj o).

Lemma back_step k j j' : back j -> step k j = Some j' -> back j'.
Proof. intros H Hs o Ho. apply H. eapply within_step; eassumption. Qed.
Lemma back_elem l : back (JArr l) -> forall x, x ∈ l -> back x.
Proof.
  intros H x Hx. apply elem_of_list_lookup in Hx as [i Hi]. apply (back_step (KNum (Z.of_nat i)) (JArr l)); [exact H|].
  cbn [step]. destruct (Z.ltb_spec (Z.of_nat i) 0); [lia|]. rewrite Nat2Z.id. exact Hi.
Qed.

Lemma jtv_stands : forall j, back j -> stands reads (jtv j) j.
Proof.
  fix IH 1. intros j Hb. destruct j as [|b|z|n k|s|l|o]; cbn [json_to_value].
  - constructor.
  - constructor.
  - destruct (in_range TBig z) eqn:E.
    + constructor. apply in_range_big. exact E.
    + apply st_big; [|easy]. intro H. apply in_range_big in H. congruence.
  - constructor.
  - constructor.
  - constructor. pose proof (back_elem l Hb) as He. clear Hb. induction l as [|a l IHl]; cbn [map]; constructor.
    + apply IH. apply He. left.
    + apply IHl. intros x Hx. apply He. right. exact Hx.
  - apply st_obj. apply Hb. apply within_refl.
Qed.

(** A value is known to hold [j]: it is the value for it, or a text read as it. *)
Definition holds (v : mval) (j : json) : Prop := stands reads v j \/ exists s, (v = MSc (VVar s) \/ v = MSc (VChar s)) /\ reads s = Some j.

Lemma text_step s j k j' : back j -> sound_key k -> reads s = Some j -> step k j = Some j' ->
  exists v, access_text reads writes s k = Some v /\ stands reads v j'.
Proof.
  intros Hb Hk Hr Hs. unfold access_text. rewrite Hr. exists (jtv j'). split; [|apply jtv_stands; eapply back_step; eassumption].
  destruct k as [n|i]; destruct j; try discriminate Hs; cbn [step] in Hs.
  - rewrite Hs. easy.
  - destruct (Z.ltb_spec i 0); [discriminate|]. rewrite nth_checked_pos by easy. rewrite Hs. easy.
Qed.
Lemma access_step v j k j' : back j -> sound_key k -> holds v j -> step k j = Some j' ->
  exists v', access_value reads writes v k = Some v' /\ stands reads v' j'.
Proof.
  intros Hb Hk Hh Hs. destruct Hh as [Hst | (s & Hv & Hr)].
  - destruct Hst as [|b|z Hz|z w Hz Hw|n m|s|vs js HF|s o Hr]; try (destruct k; discriminate Hs).
    + destruct k as [n|i]; [discriminate|]. cbn [step] in Hs. destruct (Z.ltb_spec i 0); [discriminate|].
      cbn [access_value]. rewrite nth_checked_pos by easy. apply (Forall2_lookup_r _ _ _ _ _ HF Hs).
    + cbn [access_value]. exact (text_step s (JObj o) k j' Hb Hk Hr Hs).
  - destruct Hv as [-> | ->]; cbn [access_value]; exact (text_step s j k j' Hb Hk Hr Hs).
Qed.
Lemma access_path p : forall v j j', back j -> Forall sound_key p -> holds v j -> at_path p j = Some j' ->
  exists v', access reads writes v p = Some v' /\ (p <> [] -> stands reads v' j') /\ holds v' j'.
Proof.
  induction p as [|k p IH]; intros v j j' Hb Hk Hh Hp; cbn [at_path] in Hp.
  - injection Hp as <-. exists v. split; [easy|]. split; [easy | exact Hh].
  - destruct (step k j) as [j1|] eqn:Hs; [|discriminate]. apply Forall_cons in Hk as [Hk1 Hk].
    destruct (access_step v j k j1 Hb Hk1 Hh Hs) as (v1 & Ha & Hst).
    destruct (IH v1 j1 j' (back_step k j j1 Hb Hs) Hk (or_introl Hst) Hp) as (v' & Ha' & Hn & Hh').
    exists v'. cbn [access]. rewrite Ha. split; [exact Ha'|]. split; [|exact Hh']. intros _.
    destruct p as [|k2 p]; [|apply Hn; easy]. cbn in Ha', Hp. injection Ha' as <-. injection Hp as <-. exact Hst.
Qed.

(** ** Paths that lead nowhere *)
Definition plain_strings (j : json) : Prop :=
  forall s j', within (JStr s) j -> reads s = Some j' -> ~ container j'.
Lemma text_none s j k : sized j -> sound_key k -> reads s = Some j -> step k j = None -> access_text reads writes s k = None.
Proof.
  intros Hz Hk Hr Hs. unfold access_text. rewrite Hr. destruct k as [n|i]; destruct j as [| | | | |l|o]; try easy; cbn [step] in Hs.
  - rewrite Hs. easy.
  - destruct (Z.ltb_spec i 0).
    + rewrite nth_checked_neg; [easy | easy | easy | apply Hz, within_refl].
    + rewrite nth_checked_pos by easy. rewrite Hs. easy.
Qed.
Lemma access_none v j k : sized j -> plain_strings j -> sound_key k -> holds v j -> step k j = None -> access_value reads writes v k = None.
Proof.
  intros Hz Hp Hk Hh Hs. destruct Hh as [Hst | (s & Hv & Hr)].
  - destruct Hst as [|b|z Hz'|z w Hz' Hw|n m|s|vs js HF|s o Hr]; try easy.
    + destruct w; try easy. 
    + cbn [access_value]. unfold access_text. destruct (reads s) as [j|] eqn:E; [|easy].
      pose proof (Hp s j (within_refl _) E) as Hc. destruct j; destruct k; easy || (destruct Hc; easy).
    + destruct k as [n|i]; [easy|]. cbn [step] in Hs. cbn [access_value]. pose proof (Forall2_length _ _ _ HF) as Hl.
      pose proof (Hz js (within_refl _)) as Hsh. destruct (Z.ltb_spec i 0).
      * apply nth_checked_neg; [easy | easy |]. unfold short in *. lia.
      * rewrite nth_checked_pos by easy. apply lookup_ge_None_2. apply lookup_ge_None_1 in Hs. lia.
    + cbn [access_value]. apply (text_none s (JObj o)); easy.
  - destruct Hv as [-> | ->]; cbn [access_value]; apply (text_none s j); easy.
Qed.
Lemma sized_step k j j' : sized j -> step k j = Some j' -> sized j'.
Proof. intros H Hs l Hl. apply H. eapply within_step; eassumption. Qed.
Lemma plain_step k j j' : plain_strings j -> step k j = Some j' -> plain_strings j'.
Proof. intros H Hs s j2 Hl. apply H. eapply within_step; eassumption. Qed.
Lemma access_missing p : forall v j, back j -> sized j -> plain_strings j -> Forall sound_key p -> holds v j -> at_path p j = None ->
  access reads writes v p = None.
Proof.
  induction p as [|k p IH]; intros v j Hb Hz Hps Hk Hh Hp; cbn [at_path] in Hp; [discriminate|].
  apply Forall_cons in Hk as [Hk1 Hk]. cbn [access]. destruct (step k j) as [j1|] eqn:Hs.
  - destruct (access_step v j k j1 Hb Hk1 Hh Hs) as (v1 & -> & Hst).
    apply (IH v1 j1); [eapply back_step; eassumption | eapply sized_step; eassumption | eapply plain_step; eassumption | exact Hk | left; exact Hst | exact Hp].
  - rewrite (access_none v j k Hz Hps Hk1 Hh Hs). easy.
Qed.
End P.

Section S.
Context (reads : text -> option json) (writes : list (text * json) -> text) {R : Type}.
Notation frun := (frun reads writes).
Lemma struct_plan names (es : list (fsrc R)) r vs : Forall2 (fun e v => frun e r = Some v) es vs ->
  exists ps, fplan (SStruct names es) = Some (FStruct ps) /\ feval reads writes (FStruct ps) r = Some (MVec vs).
Proof.
  intro H. induction H as [|e v es vs He H IH].
  - exists []. easy.
  - destruct IH as (ps & Hp & Hv). unfold JfModel.frun in He. destruct (fplan e) as [p|] eqn:E; [|easy].
    exists (p :: ps). cbn [fplan] in *. rewrite E.
    match type of Hp with match ?X with _ => _ end = _ => destruct X as [ps'|]; [|discriminate] end.
    assert (ps' = ps) as -> by congruence. split; [easy|]. cbn [feval] in *. rewrite He.
    match type of Hv with match ?X with _ => _ end = _ => destruct X as [vs'|]; [|discriminate] end. congruence.
Qed.
Lemma struct_vec names (es : list (fsrc R)) r vs : Forall2 (fun e v => frun e r = Some v) es vs -> frun (SStruct names es) r = Some (MVec vs).
Proof. intro H. destruct (struct_plan names es r vs H) as (ps & Hp & Hv). unfold JfModel.frun. rewrite Hp. exact Hv. Qed.
Lemma struct_num names (es : list (fsrc R)) r vs n : Forall2 (fun e v => frun e r = Some v) es vs ->
  frun (SNumber (SStruct names es) n) r = nth_checked vs (match n with Some i => i | None => 0 end).
Proof.
  intro H. destruct (struct_plan names es r vs H) as (ps & Hp & Hv). unfold JfModel.frun.
  change (fplan (SNumber (SStruct names es) n)) with
    (match fplan (SStruct names es) with
     | Some p => if decide (ftype p = AStruct \/ ftype p = AJson)
                 then Some (FAccess p (KNum (match n with Some i => i | None => 0 end))) else None
     | None => None end).
  rewrite Hp. rewrite decide_True by (left; easy).
  change (feval reads writes (FAccess (FStruct ps) (KNum (match n with Some i => i | None => 0 end))) r) with
    (match feval reads writes (FStruct ps) r with Some v => access reads writes v [KNum (match n with Some i => i | None => 0 end)] | None => None end).
  rewrite Hv. cbn [access access_value]. destruct (nth_checked vs _); easy.
Qed.
Lemma struct_position names (es : list (fsrc R)) r vs i : Forall2 (fun e v => frun e r = Some v) es vs -> fits TBig i -> short vs ->
  frun (SNumber (SStruct names es) (Some i)) r = if i <? 0 then None else vs !! Z.to_nat i.
Proof.
  intros H Hf Hs. rewrite (struct_num names es r vs (Some i) H). destruct (Z.ltb_spec i 0).
  - apply nth_checked_neg; easy.
  - apply nth_checked_pos; easy.
Qed.
Lemma struct_number names (es : list (fsrc R)) r v vs : Forall2 (fun e v => frun e r = Some v) es (v :: vs) ->
  frun (SNumber (SStruct names es) None) r = Some v.
Proof. intro H. rewrite (struct_num names es r (v :: vs) None H). rewrite nth_checked_pos; [easy | lia | cbn; lia]. Qed.

Lemma plan_struct names (es : list (fsrc R)) p : fplan (SStruct names es) = Some p -> exists ps, p = FStruct ps.
Proof.
  cbn [fplan]. match goal with |- match ?X with _ => _ end = _ -> _ => destruct X as [ps|] end; [|easy].
  intro H. exists ps. congruence.
Qed.
Lemma str_struct (ps : list (fexpr R)) n r : feval reads writes (FAccess (FStruct ps) (KStr n)) r = None.
Proof.
  cbn [feval]. match goal with |- match match ?X with _ => _ end with _ => _ end = _ => destruct X end; easy.
Qed.
Lemma struct_name names (es : list (fsrc R)) n r : frun (SDot (SStruct names es) n) r = None /\ frun (SQuoted (SStruct names es) n) r = None.
Proof.
  unfold JfModel.frun. split.
  - change (fplan (SDot (SStruct names es) n)) with
      (match fplan (SStruct names es) with Some p => if decide (ftype p = AStruct) then Some (FAccess p (KStr n)) else None | None => None end).
    destruct (fplan (SStruct names es)) as [p|] eqn:E; [|easy]. destruct (plan_struct _ _ _ E) as [ps ->].
    rewrite decide_True by easy. apply str_struct.
  - change (fplan (SQuoted (SStruct names es) n)) with
      (match fplan (SStruct names es) with Some p => if decide (ftype p = AStruct \/ ftype p = AJson) then Some (FAccess p (KStr n)) else None | None => None end).
    destruct (fplan (SStruct names es)) as [p|] eqn:E; [|easy]. destruct (plan_struct _ _ _ E) as [ps ->].
    rewrite decide_True by auto. apply str_struct.
Qed.
Lemma json_leaf t (f : R -> option mval) r n i : (exists s, f r = Some (MJson s)) \/ f r = Some MStruct ->
  frun (SDot (SLeaf t f) n) r = None /\ frun (SQuoted (SLeaf t f) n) r = None /\ frun (SNumber (SLeaf t f) i) r = None.
Proof.
  intro H. unfold JfModel.frun. cbn [fplan ftype].
  assert (Hk : forall k, feval reads writes (FAccess (FLeaf t f) k) r = None).
  { intro k. cbn [feval]. destruct H as [[s ->] | ->]; easy. }
  repeat split; case_decide; try easy; apply Hk.
Qed.
Lemma nested (e : fsrc R) n m i j r :
  frun (SDot (SDot e n) m) r = None /\ frun (SQuoted (SQuoted e n) m) r = None /\ frun (SNumber (SNumber e i) j) r = None /\
  frun (SDot (SNumber e i) n) r = None /\ frun (SNumber (SDot e n) i) r = None.
Proof.
  unfold JfModel.frun. cbn [fplan]. destruct (fplan e) as [p|]; [|easy].
  repeat split; repeat (case_decide as Hd; try easy; cbn [ftype] in *); try (destruct Hd; discriminate).
Qed.
Lemma column_name (e : fsrc R) (c d : R -> option mval) n r :
  frun (SName e (Some c) n) r = frun (SName e (Some d) n) r /\ frun (SName e (Some c) n) r = frun (SQuoted e n) r.
Proof. unfold JfModel.frun. cbn [fplan]. destruct (fplan e) as [p|]; easy. Qed.
End S.
