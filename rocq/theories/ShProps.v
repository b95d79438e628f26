(** * Theorems: the interactive shells (C113) *)
From Coq Require Import NArith Ascii String Lia.
From stdpp Require Import list.
From Verif Require Import ShSpec ShModel ShProofs.
Local Open Scope N_scope.

Lemma plain_facts s : plain s -> exists c d, head s = Some c /\ space c = false /\ last s = Some d /\ space d = false /\ d <> semi.
Proof. intros ((c & HC & HC') & (d & HD & HD' & HN)). exists c, d. auto. Qed.
Lemma line_finishes a s b : blank b -> finishes (a ++ s ++ semi :: b).
Proof. intros HB. exists (a ++ s), b. split; [apply app_assoc|exact HB]. Qed.

(** A statement on one line is run as it is, in the transaction of the shell, whatever white space is around it. *)
Theorem c113_line a s b cur id ok : blank a -> blank b -> plain s -> ~ for_shell s ->
  step (Sh [] cur) (Line (a ++ s ++ semi :: b) id ok) = (Sh [] cur, [Run cur s], true).
Proof.
  intros HA HB HP HF. destruct (plain_facts s HP) as (c & d & HC & HC' & HD & HD' & HN).
  rewrite (step_line [] a s b cur id ok c d); try assumption; [|reflexivity|apply line_finishes; exact HB].
  rewrite act_sql by exact HF. reflexivity.
Qed.
Print Assumptions c113_line.
Example c113_line_ex :
  session start [Line (txt "  SELECT a FROM t ; ") 0 true; Line (txt "begin;") 7 true; Line (txt "INSERT INTO t VALUES (1);") 0 true]
  = (Sh [] (Some 7), [Run None (txt "SELECT a FROM t "); Begin 7; Run (Some 7) (txt "INSERT INTO t VALUES (1)")]).
Proof. reflexivity. Qed.

Lemma spells_ends s w c d : spells s w -> head w = Some c -> last w = Some d -> 97 <= c <= 122 -> 97 <= d <= 122 -> plain s.
Proof.
  intros HP HC HD HCR HDR. assert (HL : forall x y, same_letter x y -> 97 <= y <= 122 -> space x = false /\ x <> semi).
  { intros x y HS HY. assert (HX : x = y \/ 65 <= x <= 90) by (destruct HS as [HS|[HS _]]; [left|right]; assumption).
    assert (64 < x) by lia. split; [|unfold semi; lia]. unfold space.
    rewrite (proj2 (N.eqb_neq x 32)), (proj2 (N.leb_gt x 13)) by lia. now rewrite andb_false_r. }
  split.
  - destruct HP as [|x y s w HXY HP]; [discriminate|]. injection HC as ->. exists x. split; [reflexivity|]. now apply (HL x c).
  - apply last_Some in HD as [w' ->]. apply Forall2_app_inv_r in HP as (s1 & s2 & HP1 & HP2 & ->).
    destruct s2 as [|x s2]; [inversion HP2|]. apply Forall2_cons in HP2 as [HX HP2]. inversion HP2. subst s2.
    exists x. split; [apply last_snoc|]. destruct (HL x d HX HDR). split; assumption.
Qed.

(** The shell's own words work in any mixture of cases and with any white space around them. *)
Theorem c113_words a s b cur id ok : blank a -> blank b ->
  let st := step (Sh [] cur) (Line (a ++ s ++ semi :: b) id ok) in
  (spells s (txt "begin") -> st = match cur with None => (Sh [] (Some id), [Begin id], true) | Some _ => (Sh [] cur, [], true) end) /\
  (spells s (txt "commit") -> st = match cur with
     | Some i => (Sh [] None, if ok then [Commit i true] else [Commit i false; Abort i], true) | None => (Sh [] None, [], true) end) /\
  (spells s (txt "rollback") -> st = match cur with Some i => (Sh [] None, [Abort i], true) | None => (Sh [] None, [], true) end) /\
  (spells s (txt "exit") \/ spells s (txt "quit") ->
     st = match cur with Some i => (Sh [] None, [Abort i], false) | None => (Sh [] None, [], false) end) /\
  (spells s (txt "help") -> st = (Sh [] cur, [Help], true)) /\
  (spells s (txt "show tables") -> st = (Sh [] cur, [Tables], true)).
Proof.
  intros HA HB st.
  assert (HGEN : forall w x y, spells s w -> head w = Some x -> last w = Some y -> 97 <= x <= 122 -> 97 <= y <= 122 -> small w = true ->
    lower s = w /\ st = let '(cur', acts, go) := act s cur id ok in (Sh [] cur', acts, go)).
  { intros w x y HS HX HY HXR HYR HW. split; [exact (spells_lower s w HW HS)|].
    destruct (plain_facts s (spells_ends s w x y HS HX HY HXR HYR)) as (c & d & HC & HC' & HD & HD' & HN).
    apply (step_line [] a s b cur id ok c d); try assumption; [reflexivity|apply line_finishes; exact HB]. }
  assert (HWORD : forall w, spells s w -> In w shell_words ->
    lower s = w /\ st = let '(cur', acts, go) := act s cur id ok in (Sh [] cur', acts, go)).
  { intros w HS HI. unfold shell_words in HI. cbn [map] in HI.
    repeat (destruct HI as [<-|HI]; [eapply HGEN; [exact HS|reflexivity|reflexivity|split; vm_compute; discriminate|split; vm_compute; discriminate|reflexivity]|]). destruct HI. }
  clear HGEN.
  repeat split; intros HS.
  - destruct (HWORD _ HS) as [HL ->]; [cbn; tauto|]. unfold act. rewrite HL. destruct cur; reflexivity.
  - destruct (HWORD _ HS) as [HL ->]; [cbn; tauto|]. unfold act. rewrite HL. destruct cur; reflexivity.
  - destruct (HWORD _ HS) as [HL ->]; [cbn; tauto|]. unfold act. rewrite HL. destruct cur; reflexivity.
  - destruct HS as [HS|HS]; (destruct (HWORD _ HS) as [HL ->]; [cbn; tauto|]); unfold act; rewrite HL; destruct cur; reflexivity.
  - destruct (HWORD _ HS) as [HL ->]; [cbn; tauto|]. unfold act. rewrite HL. destruct cur; reflexivity.
  - destruct (HWORD _ HS) as [HL ->]; [cbn; tauto|]. unfold act. rewrite HL. destruct cur; reflexivity.
Qed.
Print Assumptions c113_words.
Example c113_words_ex :
  session start [Line (txt " BeGin; ") 3 true; Line (txt "COMMIT;") 0 false; Line (txt "Show Tables;") 0 true; Line (txt "Quit;") 0 true]
  = (Sh [] None, [Begin 3; Commit 3 false; Abort 3; Tables]).
Proof. reflexivity. Qed.

(** Whatever is typed, the shell opens one transaction at a time, runs every statement in the open one, ends each at most once
    and aborts after a commit that failed. *)
Theorem c113_discipline es : follows None (session start es).2 (current (session start es).1).
Proof. exact (session_follows start es). Qed.
Print Assumptions c113_discipline.
Example c113_discipline_ex :
  session start [Line (txt "begin;") 3 true; Line (txt "begin;") 4 true; Line (txt "x;") 0 true; Line (txt "rollback;") 0 true;
                 Line (txt "commit;") 0 true; Line (txt "begin;") 5 true]
  = (Sh [] (Some 5), [Begin 3; Run (Some 3) (txt "x"); Abort 3; Begin 5]).
Proof. reflexivity. Qed.

Definition plain_line (l : text) : event := Line l 0 true.
Lemma session_more ls es buf cur : Forall (fun l => ~ finishes l) ls ->
  session (Sh buf cur) (map plain_line ls ++ es) = session (Sh (buf ++ concat ls) cur) es.
Proof.
  intros HF. revert buf. induction HF as [|l ls Hl HF IH]; intros buf; [cbn; now rewrite app_nil_r|].
  cbn [map app]. unfold session at 1; fold session. unfold plain_line at 1. rewrite step_more by exact Hl.
  rewrite IH. cbn [concat]. rewrite app_assoc. destruct (session _ es). reflexivity.
Qed.

(** Ctrl-C forgets an unfinished statement and nothing else: what follows is as if it had not been typed. *)
Theorem c113_interrupt ls es cur : Forall (fun l => ~ finishes l) ls ->
  session (Sh [] cur) (map plain_line ls ++ Interrupt :: es) = session (Sh [] cur) es.
Proof.
  intros HF. rewrite session_more by exact HF. cbn. destruct (session (Sh [] cur) es). reflexivity.
Qed.
Print Assumptions c113_interrupt.
Example c113_interrupt_ex : ~ finishes (txt "DELETE FROM t") /\
  session start [Line (txt "DELETE FROM t") 0 true; Interrupt; Line (txt "SELECT 1;") 0 true] = (Sh [] None, [Run None (txt "SELECT 1")]).
Proof. split; [|reflexivity]. rewrite <- finishes_iff. discriminate. Qed.

Lemma last_ink l : (exists c, last l = Some c /\ c <> semi /\ space c = false) -> ~ finishes l.
Proof.
  intros (c & HL & HN & HS) (x & b & -> & HB). rewrite last_app_r in HL by discriminate.
  destruct b as [|y b _] using rev_ind; [injection HL as <-; congruence|].
  rewrite app_comm_cons, last_snoc in HL. injection HL as <-. apply Forall_app in HB as [_ HB]. apply Forall_cons_1 in HB as [HB _]. congruence.
Qed.

(** The last line of a statement, when the ones before it are in the buffer. *)
Lemma last_line buf x cur id ok : (exists c, last x = Some c /\ c <> semi /\ space c = false) ->
  exists a s, buf ++ x = a ++ s /\ blank a /\
    step (Sh buf cur) (Line (x ++ [semi]) id ok) = let '(cur', acts, go) := act s cur id ok in (Sh [] cur', acts, go).
Proof.
  intros (d & HD & HN & HS). destruct (drop_while_split space (buf ++ x)) as (a & HE & HA & HH).
  exists a, (drop_while space (buf ++ x)). split; [exact HE|]. split; [exact HA|].
  destruct (drop_while space (buf ++ x)) as [|c s] eqn:E.
  - exfalso. rewrite app_nil_r in HE. assert (HX : x <> []) by (intros ->; discriminate).
    rewrite <- (last_app_r buf x HX), HE in HD. pose proof (last_blank a d HA HD). congruence.
  - assert (HX : x <> []) by (intros ->; discriminate).
    apply (step_line buf a (c :: s) [] cur id ok c d).
    + rewrite app_assoc, HE, <- app_assoc. reflexivity.
    + exists x, []. split; [reflexivity|constructor].
    + exact HA.
    + constructor.
    + reflexivity.
    + apply HH. reflexivity.
    + rewrite <- HD, <- (last_app_r buf x HX), HE. symmetry. apply last_app_r. discriminate.
    + exact HN.
Qed.

(** A statement over several lines is run with the words that were typed, PROVIDED there is white space at one side of every
    line end.  (Missing: lines without it, see below.) *)
Theorem c113_lines_partial ls x cur : Forall (fun l => ~ finishes l) ls -> apart (ls ++ [x]) ->
  (exists c, last x = Some c /\ c <> semi /\ space c = false) ->
  exists s, words s = words (typed (ls ++ [x])) /\
    (for_shell s \/ session (Sh [] cur) (map plain_line (ls ++ [x ++ [semi]])) = (Sh [] cur, [Run cur s])).
Proof.
  intros HF HA HX. destruct (last_line (concat ls) x cur 0 true HX) as (a & s & HE & HB & HS). exists s. split.
  - transitivity (words (concat (ls ++ [x]))).
    + rewrite concat_app. cbn [concat]. rewrite app_nil_r, HE. symmetry. apply words_lead. exact HB.
    + symmetry. exact (apart_words _ HA []).
  - assert (HD : Decision (lower s ∈ shell_words)) by apply _.
    destruct HD as [HD|HD].
    + left. exists (lower s). split; [apply elem_of_list_In, HD|]. now apply lower_spells.
    + right. rewrite map_app, session_more by exact HF. cbn [map session app]. unfold plain_line at 1.
      rewrite HS, act_sql; [reflexivity|]. intros (w & HI & HP). apply HD. apply elem_of_list_In.
      assert (HW : small w = true).
      { unfold shell_words in HI. cbn [map] in HI. repeat (destruct HI as [<-|HI]; [reflexivity|]). destruct HI. }
      now rewrite (spells_lower s w HW HP).
Qed.
Print Assumptions c113_lines_partial.
Example c113_lines_partial_ex :
  session start (map plain_line [txt "SELECT id "; txt "FROM t"; txt "  WHERE id = 1;"]) = (Sh [] None, [Run None (txt "SELECT id FROM t  WHERE id = 1")]) /\
  apart [txt "SELECT id "; txt "FROM t"; txt "  WHERE id = 1"] /\ ~ finishes (txt "SELECT id ") /\ ~ finishes (txt "FROM t").
Proof.
  split; [reflexivity|]. split.
  - cbn. split; [left; exists 32; split; reflexivity|]. split; [right; exists 32; split; reflexivity|exact I].
  - split; rewrite <- finishes_iff; discriminate.
Qed.

(** REFUTED: lines are put together with nothing between them, so every line end without white space beside it makes one word
    of two. *)
Theorem c113_lines_refuted a x cur c d :
  last a = Some c -> space c = false -> c <> semi -> head x = Some d -> space d = false ->
  (exists c, last x = Some c /\ c <> semi /\ space c = false) ->
  exists s, length (words (typed [a; x])) = S (length (words s)) /\
    (for_shell s \/ session (Sh [] cur) (map plain_line [a; x ++ [semi]]) = (Sh [] cur, [Run cur s])).
Proof.
  intros HC HC' HCN HD HD' HX. destruct (last_line a x cur 0 true HX) as (b & s & HE & HB & HS). exists s. split.
  - rewrite <- (words_lead b s HB), <- HE. exact (words_glued a x [] c d HC HC' HD HD').
  - assert (HN : ~ finishes a) by (apply last_ink; exists c; auto).
    assert (HDC : Decision (lower s ∈ shell_words)) by apply _.
    destruct HDC as [HI|HI].
    + left. exists (lower s). split; [apply elem_of_list_In, HI|]. now apply lower_spells.
    + right. change (map plain_line [a; x ++ [semi]]) with (map plain_line [a] ++ [plain_line (x ++ [semi])]).
      rewrite session_more by (repeat constructor; exact HN). cbn [session app concat]. rewrite app_nil_r. unfold plain_line.
      rewrite HS, act_sql; [reflexivity|]. intros (w & HI' & HP). apply HI. apply elem_of_list_In.
      assert (HW : small w = true).
      { unfold shell_words in HI'. cbn [map] in HI'. repeat (destruct HI' as [<-|HI']; [reflexivity|]). destruct HI'. }
      now rewrite (spells_lower s w HW HP).
Qed.
Print Assumptions c113_lines_refuted.
Example c113_lines_refuted_ex :
  session start (map plain_line [txt "SELECT id"; txt "FROM t;"]) = (Sh [] None, [Run None (txt "SELECT idFROM t")]) /\
  session start (map plain_line [txt "ro"; txt "llback;"]) = (Sh [] None, []).
Proof. split; reflexivity. Qed.

(** REFUTED: a line that ends in a semicolon ends the statement even inside a text literal: the first half is run. *)
Theorem c113_quote_refuted s cur id ok : plain s -> in_quotes s ->
  step (Sh [] cur) (Line (s ++ [semi]) id ok) = (Sh [] cur, [Run cur s], true).
Proof.
  intros HP HQ. pose proof (c113_line [] s [] cur id ok) as HL. cbn [app] in HL. apply HL; [constructor|constructor|exact HP|].
  intros (w & HI & HS).
  assert (HN : Forall (fun c => c <> quote) w).
  { unfold shell_words in HI. cbn [map] in HI. repeat (destruct HI as [<-|HI]; [repeat constructor; discriminate|]). destruct HI. }
  assert (HE : filter (fun c => c = quote) s = []).
  { clear HP HQ HL HI. induction HS as [|x y s w HXY HS IH]; [reflexivity|]. apply Forall_cons_1 in HN as [HY HN].
    unfold text in *. rewrite filter_cons_False; [exact (IH HN)|]. intros ->. destruct HXY as [<-|[HXY _]]; [congruence|unfold quote in HXY; lia]. }
  unfold in_quotes in HQ. rewrite HE in HQ. discriminate.
Qed.
Print Assumptions c113_quote_refuted.
Example c113_quote_refuted_ex : in_quotes (txt "INSERT INTO t VALUES ('a") /\
  session start (map plain_line [txt "INSERT INTO t VALUES ('a;"; txt "b');"])
  = (Sh [] None, [Run None (txt "INSERT INTO t VALUES ('a"); Run None (txt "b')")]).
Proof. split; reflexivity. Qed.

Lemma spells_length s w : spells s w -> length s = length w.
Proof. apply Forall2_length. Qed.

(** REFUTED: with a blank before the semicolon, BEGIN opens no transaction and COMMIT ends none; they are run as SQL. *)
Theorem c113_blank_refuted s ws i id ok : blank ws -> ws <> [] ->
  (spells s (txt "begin") -> step (Sh [] None) (Line (s ++ ws ++ [semi]) id ok) = (Sh [] None, [Run None (s ++ ws)], true)) /\
  (spells s (txt "commit") \/ spells s (txt "rollback") ->
     step (Sh [] (Some i)) (Line (s ++ ws ++ [semi]) id ok) = (Sh [] (Some i), [Run (Some i) (s ++ ws)], true)).
Proof.
  intros HB HN.
  assert (HGEN : forall w x y cur, spells s w -> head w = Some x -> last w = Some y -> 97 <= x <= 122 -> 97 <= y <= 122 ->
    step (Sh [] cur) (Line (s ++ ws ++ [semi]) id ok) = (Sh [] cur, [Run cur (s ++ ws)], true)).
  { intros w x y cur HS HX HY HXR HYR.
    destruct (plain_facts s (spells_ends s w x y HS HX HY HXR HYR)) as (c & d & HC & HC' & HD & HD' & HND).
    destruct ws as [|z zs _] using rev_ind; [congruence|]. apply Forall_app in HB as [HB HZ]. apply Forall_cons_1 in HZ as [HZ _].
    rewrite (step_line [] [] (s ++ zs ++ [z]) [] cur id ok c z).
    - rewrite act_sql; [reflexivity|]. intros (v & HI & HV).
      assert (HL : exists q, last v = Some q /\ 97 <= q <= 122).
      { unfold shell_words in HI. cbn [map] in HI.
        repeat (destruct HI as [<-|HI]; [eexists; split; [reflexivity|split; vm_compute; discriminate]|]). destruct HI. }
      destruct HL as (q & HQ & HQR). apply last_Some in HQ as [v' ->]. rewrite app_assoc in HV.
      apply Forall2_app_inv_r in HV as (s1 & s2 & HP1 & HP2 & HE). destruct s2 as [|u s2]; [inversion HP2|].
      apply Forall2_cons in HP2 as [HU HP2]. inversion HP2. subst s2. apply app_inj_tail in HE as [_ <-].
      assert (64 < z) by (destruct HU as [->|[HU _]]; lia). unfold space in HZ.
      rewrite (proj2 (N.eqb_neq z 32)), (proj2 (N.leb_gt z 13)), andb_false_r in HZ by lia. discriminate.
    - cbn [app]. rewrite <- !app_assoc. reflexivity.
    - exists (s ++ zs ++ [z]), []. split; [rewrite <- !app_assoc; reflexivity|constructor].
    - constructor.
    - constructor.
    - destruct s; [discriminate|exact HC].
    - exact HC'.
    - rewrite app_assoc. apply last_snoc.
    - intros ->. discriminate. }
  split; [intros HS|intros [HS|HS]]; (eapply HGEN; [exact HS|reflexivity|reflexivity|split; vm_compute; discriminate|split; vm_compute; discriminate]).
Qed.
Print Assumptions c113_blank_refuted.
Example c113_blank_refuted_ex :
  session start (map plain_line [txt "begin ;"; txt "DELETE FROM t;"; txt "rollback;"])
  = (Sh [] None, [Run None (txt "begin "); Run None (txt "DELETE FROM t")]) /\ blank (txt " ").
Proof. split; [reflexivity|repeat constructor]. Qed.

(** REFUTED: the other spellings of BEGIN open no transaction of the shell, and neither does BEGIN with more after it on its
    line: the statements are run together, on their own. *)
Theorem c113_begin_refuted s r id ok :
  (spells s (txt "begin transaction") \/ spells s (txt "start transaction") \/ spells s (txt "begin work") ->
     step (Sh [] None) (Line (s ++ [semi]) id ok) = (Sh [] None, [Run None s], true)) /\
  (spells s (txt "begin") -> plain r ->
     step (Sh [] None) (Line (s ++ semi :: r ++ [semi]) id ok) = (Sh [] None, [Run None (s ++ semi :: r)], true)).
Proof.
  split.
  - intros HS.
    assert (HW : exists w, spells s w /\ small w = true /\ (forall v, In v shell_words -> length v <> length w) /\ plain s).
    { assert (HGEN : forall w x y, spells s w -> head w = Some x -> last w = Some y -> 97 <= x <= 122 -> 97 <= y <= 122 ->
        small w = true -> (forall v, In v shell_words -> v <> w) -> lower s = w /\ plain s) by
        (intros w x y HW HX HY HXR HYR HM _; split; [exact (spells_lower s w HM HW)|exact (spells_ends s w x y HW HX HY HXR HYR)]).
      destruct HS as [HS|[HS|HS]]; eexists; (split; [exact HS|]); (split; [reflexivity|]); (split;
        [intros v HV; unfold shell_words in HV; cbn [map] in HV; repeat (destruct HV as [<-|HV]; [discriminate|]); destruct HV|
         eapply spells_ends; [exact HS|reflexivity|reflexivity|split; vm_compute; discriminate|split; vm_compute; discriminate]]). }
    destruct HW as (w & HW & _ & HLEN & HP).
    pose proof (c113_line [] s [] None id ok) as HL. cbn [app] in HL. apply HL; [constructor|constructor|exact HP|].
    intros (v & HI & HV). apply (HLEN v HI). rewrite <- (spells_length s v HV). exact (spells_length s w HW).
  - intros HS HP.
    destruct (plain_facts s (spells_ends s (txt "begin") 98 110 HS eq_refl eq_refl ltac:(lia) ltac:(lia))) as (c & d & HC & HC' & _).
    destruct (plain_facts r HP) as (c2 & d2 & HC2 & HC2' & HD2 & HD2' & HN2).
    rewrite (step_line [] [] (s ++ semi :: r) [] None id ok c d2).
    + rewrite act_sql; [reflexivity|]. intros (v & HI & HV).
      assert (HN : Forall (fun c => c <> semi) v).
      { unfold shell_words in HI. cbn [map] in HI. repeat (destruct HI as [<-|HI]; [repeat constructor; discriminate|]). destruct HI. }
      apply Forall2_app_inv_l in HV as (v1 & v2 & _ & HV & ->). apply Forall_app in HN as [_ HN].
      destruct v2 as [|y v2]; [inversion HV|]. apply Forall2_cons in HV as [HY _]. apply Forall_cons_1 in HN as [HN _].
      destruct HY as [<-|[HY _]]; [congruence|unfold semi in HY; lia].
    + cbn [app]. rewrite <- !app_assoc. reflexivity.
    + exists (s ++ semi :: r), []. split; [rewrite <- !app_assoc; reflexivity|constructor].
    + constructor.
    + constructor.
    + destruct s; [discriminate|exact HC].
    + exact HC'.
    + assert (HR : r <> []) by (intros ->; discriminate).
      rewrite last_app_r by discriminate. change (semi :: r) with ([semi] ++ r). rewrite last_app_r by exact HR. exact HD2.
    + exact HN2.
Qed.
Print Assumptions c113_begin_refuted.
Example c113_begin_refuted_ex :
  session start (map plain_line [txt "BEGIN TRANSACTION;"; txt "begin; DELETE FROM t;"])
  = (Sh [] None, [Run None (txt "BEGIN TRANSACTION"); Run None (txt "begin; DELETE FROM t")]).
Proof. reflexivity. Qed.

(** REFUTED: the end of the input (or an error of the terminal) leaves the shell without ending the open transaction. *)
Theorem c113_eof_refuted es e : e = Eof \/ e = Fault -> session start (es ++ [e]) = session start es /\
  forall i, current (session start es).1 = Some i -> follows None (session start (es ++ [e])).2 (Some i).
Proof.
  intros HE.
  assert (HG : forall s, session s (es ++ [e]) = session s es).
  { induction es as [|x es IH]; intros s; cbn [session app].
    - destruct s as [buf cur]. destruct HE as [->| ->]; reflexivity.
    - destruct (step s x) as [[s' a] go]. destruct go; [|reflexivity]. now rewrite IH. }
  split; [apply HG|]. intros i HI. rewrite HG, <- HI. apply (session_follows start es).
Qed.
Print Assumptions c113_eof_refuted.
Example c113_eof_refuted_ex :
  session start [Line (txt "begin;") 3 true; Line (txt "x;") 0 true; Eof] = (Sh [] (Some 3), [Begin 3; Run (Some 3) (txt "x")]).
Proof. reflexivity. Qed.

(** The client sends a one-line statement with its semicolon and without the white space around it. *)
Theorem c113_client_line a s b id ok : blank a -> blank b -> plain s -> s <> txt "exit" ->
  cstep [] (Line (a ++ s ++ semi :: b) id ok) = ([], [Query (s ++ [semi])], true).
Proof.
  intros HA HB HP HN. destruct (plain_facts s HP) as (c & d & HC & HC' & HD & HD' & _). unfold cstep. cbn [app].
  rewrite (proj2 (finishes_iff _) (line_finishes a s b HB)).
  replace (a ++ s ++ semi :: b) with (a ++ (s ++ [semi]) ++ b) by (rewrite <- !app_assoc; reflexivity).
  rewrite (trim_mid a (s ++ [semi]) b c semi HA HB); [|destruct s; [discriminate|exact HC]|exact HC'|apply last_snoc|reflexivity].
  destruct (decide _) as [E|_]; [|reflexivity].
  exfalso. apply HN. change (txt "exit;") with (txt "exit" ++ [semi]) in E. now apply app_inj_tail in E as [E _].
Qed.
Print Assumptions c113_client_line.
Example c113_client_line_ex : client [] [Line (txt " SELECT 1; ") 0 true; Line (txt "exit;") 0 true; Line (txt "x;") 0 true] = [Query (txt "SELECT 1;")].
Proof. reflexivity. Qed.

(** REFUTED: the client, too, makes one word of two at a line end; it takes EXIT for a query unless it is in small letters;
    and Ctrl-C ends it. *)
Theorem c113_client_refuted a x c d s id ok buf es :
  (last a = Some c -> space c = false -> c <> semi -> head x = Some d -> space d = false ->
    exists q, client [] (map plain_line [a; x ++ [semi]]) = (if decide (q = txt "exit;") then [] else [Query q]) /\
      length (words (typed [a; x ++ [semi]])) = S (length (words q))) /\
  (spells s (txt "exit") -> s <> txt "exit" -> cstep [] (Line (s ++ [semi]) id ok) = ([], [Query (s ++ [semi])], true)) /\
  client buf (Interrupt :: es) = [].
Proof.
  split; [|split; [|reflexivity]].
  - intros HC HC' HCN HD HD'. exists (trim (a ++ x ++ [semi])).
    assert (HN : ~ finishes a) by (apply last_ink; exists c; auto).
    assert (HF : finishes (x ++ [semi])) by (exists x, []; split; [reflexivity|constructor]).
    split.
    + cbn [map client]. unfold plain_line, cstep. cbn [app].
      destruct (ends_semi (trim a)) eqn:E; [exfalso; apply HN, finishes_iff, E|]. rewrite (proj2 (finishes_iff _) HF). cbn [app].
      destruct (decide _); reflexivity.
    + destruct (trim_split (a ++ x ++ [semi])) as (b1 & b2 & HE & HB1 & HB2 & HL & HH).
      assert (HT : a ++ x ++ [semi] = b1 ++ trim (a ++ x ++ [semi])).
      { destruct b2 as [|z zs _] using rev_ind; [now rewrite app_nil_r in HE|]. exfalso.
        apply Forall_app in HB2 as [_ HZ]. apply Forall_cons_1 in HZ as [HZ _]. apply (f_equal last) in HE.
        rewrite !app_assoc, !last_snoc in HE. injection HE as <-. discriminate. }
      rewrite <- (words_lead b1 (trim _) HB1), <- HT. apply (words_glued a (x ++ [semi]) [] c d HC HC'); [|exact HD'].
      destruct x; [discriminate|exact HD].
  - intros HS HN. pose proof (c113_client_line [] s [] id ok) as HL. cbn [app] in HL. apply HL; [constructor|constructor| |exact HN].
    exact (spells_ends s (txt "exit") 101 116 HS eq_refl eq_refl ltac:(lia) ltac:(lia)).
Qed.
Print Assumptions c113_client_refuted.
Example c113_client_refuted_ex :
  client [] (map plain_line [txt "SELECT id"; txt "FROM t;"]) = [Query (txt "SELECT idFROM t;")] /\
  client [] [Line (txt "EXIT;") 0 true; Interrupt; Line (txt "x;") 0 true] = [Query (txt "EXIT;")].
Proof. split; reflexivity. Qed.
