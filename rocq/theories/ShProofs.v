(** * Proofs: the interactive shells (C113) *)
From Coq Require Import NArith Ascii String Lia.
From stdpp Require Import list.
From Verif Require Import ShSpec ShModel.
Local Open Scope N_scope.

Lemma drop_while_all f a b : Forall (fun c => f c = true) a -> drop_while f (a ++ b) = drop_while f b.
Proof. induction 1 as [|c a Hc Ha IH]; [reflexivity|]. cbn. rewrite Hc. exact IH. Qed.
Lemma drop_while_stop f l c : head l = Some c -> f c = false -> drop_while f l = l.
Proof. destruct l as [|d l]; [discriminate|]. intros HE HF. injection HE as ->. cbn. now rewrite HF. Qed.
Lemma drop_while_split f l : exists a, l = a ++ drop_while f l /\ Forall (fun c => f c = true) a /\
  forall c, head (drop_while f l) = Some c -> f c = false.
Proof.
  induction l as [|c l (a & HE & HA & HH)]; [exists []; split; [reflexivity|]; split; [constructor|discriminate]|].
  cbn. destruct (f c) eqn:E.
  - exists (c :: a). split; [cbn; now rewrite <- HE|]. split; [constructor; assumption|exact HH].
  - exists []. split; [reflexivity|]. split; [constructor|]. intros d HD. injection HD as <-. exact E.
Qed.
Lemma head_rev (l : text) : head (rev l) = last l.
Proof.
  destruct l as [|x l _] using rev_ind; [reflexivity|]. rewrite rev_app_distr, last_snoc. reflexivity.
Qed.
Lemma trim_end_split f l : exists b, l = trim_end f l ++ b /\ Forall (fun c => f c = true) b /\
  forall c, last (trim_end f l) = Some c -> f c = false.
Proof.
  unfold trim_end. destruct (drop_while_split f (rev l)) as (a & HE & HA & HH).
  exists (rev a). split; [|split].
  - rewrite <- rev_app_distr, <- HE. symmetry. apply rev_involutive.
  - apply Forall_forall. intros c Hc. apply (proj1 (Forall_forall _ _) HA). apply elem_of_list_In. apply elem_of_list_In in Hc.
    now apply in_rev.
  - intros c Hc. apply HH. rewrite <- (rev_involutive (drop_while f (rev l))), head_rev. exact Hc.
Qed.
Lemma trim_end_all f l b c : last l = Some c -> f c = false -> Forall (fun c => f c = true) b -> trim_end f (l ++ b) = l.
Proof.
  intros HL HF HB. unfold trim_end. rewrite rev_app_distr, drop_while_all.
  - rewrite (drop_while_stop f (rev l) c); [apply rev_involutive|rewrite head_rev; exact HL|exact HF].
  - apply Forall_forall. intros x Hx. apply (proj1 (Forall_forall _ _) HB). apply elem_of_list_In. apply elem_of_list_In in Hx.
    now apply in_rev.
Qed.
Lemma trim_mid a s b c d : blank a -> blank b -> head s = Some c -> space c = false -> last s = Some d -> space d = false ->
  trim (a ++ s ++ b) = s.
Proof.
  intros HA HB HC HC' HD HD'. unfold trim, trim_start. rewrite drop_while_all by exact HA.
  rewrite (drop_while_stop _ (s ++ b) c); [|destruct s; [discriminate|exact HC]|exact HC'].
  apply (trim_end_all space s b d HD HD' HB).
Qed.
Lemma trim_split l : exists a b, l = a ++ trim l ++ b /\ blank a /\ blank b /\
  (forall c, last (trim l) = Some c -> space c = false) /\ (forall c, head (trim l) = Some c -> space c = false).
Proof.
  unfold trim. destruct (drop_while_split space l) as (a & HE & HA & HH).
  destruct (trim_end_split space (trim_start l)) as (b & HE2 & HB & HL).
  exists a, b. split; [rewrite <- HE2; exact HE|]. split; [exact HA|]. split; [exact HB|]. split; [exact HL|].
  intros c Hc. apply HH. fold (trim_start l). rewrite HE2. destruct (trim_end space (trim_start l)); [discriminate|exact Hc].
Qed.
Lemma last_app_r {A} (a b : list A) : b <> [] -> last (a ++ b) = last b.
Proof.
  destruct b as [|x b _] using rev_ind; [congruence|]. intros _. rewrite app_assoc, !last_snoc. reflexivity.
Qed.
Lemma last_blank b c : blank b -> last b = Some c -> space c = true.
Proof.
  intros HB HL. apply last_Some in HL as [l ->]. apply Forall_app in HB as [_ HB]. now apply Forall_cons_1 in HB as [HB _].
Qed.
Lemma semi_ink : space semi = false.
Proof. reflexivity. Qed.
Lemma finishes_iff l : ends_semi (trim l) = true <-> finishes l.
Proof.
  destruct (trim_split l) as (a & b & HE & HA & HB & HL & HH). split.
  - unfold ends_semi. destruct (last (trim l)) as [c|] eqn:E; [|discriminate]. intros HC. apply N.eqb_eq in HC. subst c.
    apply last_Some in E as [x E]. exists (a ++ x), b. split; [|exact HB].
    transitivity (a ++ trim l ++ b); [exact HE|]. rewrite E, <- !app_assoc. reflexivity.
  - intros (x & b' & HX & HB'). unfold ends_semi.
    destruct (trim l) as [|z zs _] eqn:E using rev_ind.
    + exfalso. rewrite HX in HE. cbn in HE.
      assert (HF : blank (x ++ semi :: b')) by (rewrite HE; apply Forall_app; split; assumption).
      apply Forall_app in HF as [_ HF]. apply Forall_cons_1 in HF as [HF _]. discriminate.
    + rewrite last_snoc in HL |- *. specialize (HL z eq_refl).
      assert (HZ : x ++ [semi] = a ++ zs ++ [z]).
      { rewrite HX in HE. apply (f_equal (trim_end space)) in HE.
        replace (x ++ semi :: b') with ((x ++ [semi]) ++ b') in HE by (rewrite <- app_assoc; reflexivity).
        rewrite (trim_end_all space (x ++ [semi]) b' semi) in HE; [|apply last_snoc|reflexivity|exact HB'].
        rewrite <- app_assoc in HE.
        replace (a ++ (zs ++ [z] ++ b)) with ((a ++ zs ++ [z]) ++ b) in HE by (rewrite <- !app_assoc; reflexivity).
        rewrite (trim_end_all space _ b z) in HE; [exact HE| |exact HL|exact HB].
        rewrite app_assoc, last_snoc. reflexivity. }
      rewrite app_assoc in HZ. apply app_inj_tail in HZ as [_ <-]. reflexivity.
Qed.

Lemma lower_spells s w : lower s = w -> spells s w.
Proof.
  intros <-. unfold spells, lower. induction s as [|c s IH]; cbn; constructor; [|exact IH].
  unfold same_letter. destruct ((65 <=? c) && (c <=? 90)) eqn:E; [|left; reflexivity].
  apply andb_prop in E as [E1 E2]. apply N.leb_le in E1. apply N.leb_le in E2. right. lia.
Qed.
Definition small (w : text) : bool := forallb (fun c => negb ((65 <=? c) && (c <=? 90))) w.
Lemma spells_lower s w : small w = true -> spells s w -> lower s = w.
Proof.
  intros HS HP. revert HS. induction HP as [|a b s w HA HP IH]; intros HS; [reflexivity|].
  cbn in HS. apply andb_prop in HS as [HB HS]. unfold lower in *. cbn [map]. rewrite (IH HS). f_equal.
  apply negb_true_iff in HB. destruct HA as [->|[HA ->]]; [now rewrite HB|].
  rewrite (proj2 (N.leb_le 65 a)), (proj2 (N.leb_le a 90)) by lia. reflexivity.
Qed.

(** The command of a line [a s ; b]. *)
Definition act (s : text) (cur : option N) (id : N) (ok : bool) : option N * list action * bool :=
  let l := lower s in
  if decide (l = txt "exit") then (rollback_ cur, false)
  else if decide (l = txt "quit") then (rollback_ cur, false)
  else if decide (l = txt "help") then (cur, [Help], true)
  else if decide (l = txt "begin") then (begin_ cur id, true)
  else if decide (l = txt "commit") then (commit_ cur ok, true)
  else if decide (l = txt "rollback") then (rollback_ cur, true)
  else if decide (l = txt "show tables") then (cur, [Tables], true)
  else (cur, [Run cur s], true).
Lemma act_sql s cur id ok : ~ for_shell s -> act s cur id ok = (cur, [Run cur s], true).
Proof.
  intros HF. unfold act.
  repeat match goal with |- context [decide (lower s = ?w)] =>
    destruct (decide (lower s = w)) as [E|_]; [exfalso; apply HF; exists w; split; [cbn; tauto|apply lower_spells; exact E]|] end.
  reflexivity.
Qed.
(** A statement whose first character is visible and whose last is no semicolon. *)
Lemma command_eq a s b cur id ok c d : blank a -> blank b -> head s = Some c -> space c = false -> last s = Some d -> d <> semi ->
  command (a ++ s ++ semi :: b) cur id ok = act s cur id ok.
Proof.
  intros HA HB HC HC' HD HD'. unfold command.
  replace (a ++ s ++ semi :: b) with (a ++ (s ++ [semi]) ++ b) by (rewrite <- !app_assoc; reflexivity).
  rewrite (trim_mid a (s ++ [semi]) b c semi HA HB); [|destruct s; [discriminate|exact HC]|exact HC'|apply last_snoc|reflexivity].
  destruct (s ++ [semi]) as [|x l] eqn:E; [destruct s; discriminate|]. rewrite <- E.
  rewrite (trim_end_all (fun x => x =? 59) s [semi] d); [reflexivity|exact HD|apply N.eqb_neq; exact HD'|repeat constructor].
Qed.
Lemma step_line buf a s b cur id ok c d l : buf ++ l = a ++ s ++ semi :: b -> finishes l ->
  blank a -> blank b -> head s = Some c -> space c = false -> last s = Some d -> d <> semi ->
  step (Sh buf cur) (Line l id ok) = let '(cur', acts, go) := act s cur id ok in (Sh [] cur', acts, go).
Proof.
  intros HE HF HA HB HC HC' HD HD'. unfold step. cbn [buffer current]. rewrite (proj2 (finishes_iff l) HF).
  rewrite HE, (command_eq a s b cur id ok c d) by assumption. reflexivity.
Qed.
Lemma step_more buf cur l id ok : ~ finishes l -> step (Sh buf cur) (Line l id ok) = (Sh (buf ++ l) cur, [], true).
Proof.
  intros HF. unfold step. destruct (ends_semi (trim l)) eqn:E; [|reflexivity]. exfalso. apply HF, finishes_iff, E.
Qed.

(* transactions *)
Lemma follows_app c a m b e : follows c a m -> follows m b e -> follows c (a ++ b) e.
Proof. induction 1; intros HB; cbn; try (econstructor; eauto; fail). exact HB. Qed.
Lemma step_follows s e s' a go : step s e = (s', a, go) -> follows (current s) a (current s').
Proof.
  intros HS. destruct s as [buf cur], e as [l id ok| | |]; unfold step in HS; cbn [buffer current] in HS.
  - destruct (ends_semi (trim l)).
    + unfold command in HS. destruct (trim (buf ++ l)) as [|x y]; [injection HS as <- <- <-; constructor|].
      revert HS. generalize (trim_end (fun x => x =? 59) (x :: y)). intros t HS.
      repeat match type of HS with context [decide (lower t = ?w)] => destruct (decide (lower t = w)) end;
        destruct cur; cbn in HS; try destruct ok; injection HS as <- <- <-; cbn; repeat constructor.
    + injection HS as <- <- <-. constructor.
  - injection HS as <- <- <-. constructor.
  - injection HS as <- <- <-. constructor.
  - injection HS as <- <- <-. constructor.
Qed.
Lemma session_follows s es : follows (current s) (session s es).2 (current (session s es).1).
Proof.
  revert s. induction es as [|e es IH]; intros s; cbn [session]; [constructor|].
  destruct (step s e) as [[s' a] go] eqn:E. apply step_follows in E. destruct go; [|exact E].
  specialize (IH s'). destruct (session s' es) as [s2 b]. cbn in *. exact (follows_app _ _ _ _ _ E IH).
Qed.

(* words *)
Lemma words_cong l x y : (forall cur, words_from cur x = words_from cur y) -> forall cur, words_from cur (l ++ x) = words_from cur (l ++ y).
Proof.
  intros HE. induction l as [|c l IH]; intros cur; [apply HE|]. cbn. destruct (space c); [|apply IH]. now rewrite !IH.
Qed.
Lemma words_gap a b cur : (exists c, last a = Some c /\ space c = true) \/ (exists c, head b = Some c /\ space c = true) ->
  words_from cur (a ++ 10 :: b) = words_from cur (a ++ b).
Proof.
  intros [(c & HL & HC)|(c & HH & HC)].
  - apply last_Some in HL as [a' ->]. rewrite <- !app_assoc. apply words_cong. clear cur. intros cur. cbn. rewrite HC. destruct cur; reflexivity.
  - destruct b as [|d b]; [discriminate|]. injection HH as ->. apply words_cong. clear cur. intros cur. cbn. rewrite HC. destruct cur; reflexivity.
Qed.
Lemma typed_cons a b ls : typed (a :: b :: ls) = a ++ 10 :: typed (b :: ls).
Proof. reflexivity. Qed.
Lemma apart_words ls : apart ls -> forall cur, words_from cur (typed ls) = words_from cur (concat ls).
Proof.
  induction ls as [|a ls IH]; intros HA cur; [reflexivity|]. destruct ls as [|b ls].
  - cbn. now rewrite app_nil_r.
  - destruct HA as [HG HA]. rewrite typed_cons, words_gap.
    + change (concat (a :: b :: ls)) with (a ++ concat (b :: ls)). apply words_cong. apply IH. exact HA.
    + destruct HG as [HG|(c & HH & HC)]; [left; exact HG|right]. exists c. split; [|exact HC].
      destruct b as [|x b]; [discriminate|]. destruct ls; exact HH.
Qed.
Lemma words_lead a l : blank a -> words (a ++ l) = words l.
Proof. induction 1 as [|c a HC HA IH]; [reflexivity|]. unfold words. cbn. rewrite HC. exact IH. Qed.
Lemma words_len l c1 c2 : c1 <> [] -> c2 <> [] -> length (words_from c1 l) = length (words_from c2 l).
Proof.
  revert c1 c2. induction l as [|c l IH]; intros c1 c2 H1 H2; cbn.
  - destruct c1, c2; congruence || reflexivity.
  - destruct (space c).
    + destruct c1, c2; congruence || reflexivity.
    + apply IH; discriminate.
Qed.
Lemma words_glued a b cur c d : last a = Some c -> space c = false -> head b = Some d -> space d = false ->
  length (words_from cur (a ++ 10 :: b)) = S (length (words_from cur (a ++ b))).
Proof.
  intros HL HC HH HD. apply last_Some in HL as [a' ->]. destruct b as [|x b]; [discriminate|]. injection HH as ->.
  revert cur. induction a' as [|y a' IH]; intros cur.
  - cbn. rewrite HC, HD. cbn. f_equal. apply words_len; discriminate.
  - cbn. destruct (space y); [|apply IH]. destruct cur; cbn; [apply IH|]. f_equal. apply IH.
Qed.
