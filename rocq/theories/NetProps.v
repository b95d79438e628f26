(** * C88-C90: the network interface *)
From Coq Require Import NArith ZArith List Bool Lia.
From Verif Require Import Bytes NetModel NetSpec NetProofs.
Import ListNotations.
Open Scope N_scope.

Local Ltac reads := repeat (apply Forall_cons; [try split|]); try apply Forall_nil.

(** ** C88: every request is executed once, as it was sent *)

(** Messages survive serialisation, whatever follows them. *)
Theorem c88_messages_partial : forall q p rest,
  (ok_req q -> dec_req (enc_req q ++ rest) = Some (q, rest)) /\
  (ok_resp p -> dec_resp (enc_resp p ++ rest) = Some (p, rest)).
Proof. intros q p rest. split; intros H; [apply rt_req|apply rt_resp]; exact H. Qed.
Print Assumptions c88_messages_partial.

(** EXECUTE 7 (-5, 'é') and a result with one row. *)
Definition ex_row : list value :=
  [Value (VInt (-5)) (Length 4) false 3; Value (VVar [195; 169]) (Length 2) true 11].
Example c88_messages_ex :
  ok_req (Execute 7 ex_row) /\ enc_req (Execute 7 ex_row) = [5; 7; 2; 3; 9; 0; 4; 0; 3; 0; 11; 2; 195; 169; 0; 2; 1; 11; 0] /\
  ok_resp (Results [[97]] [ex_row] []).
Proof.
  assert (L : ok_list ok_value ex_row).
  { split; [vm_compute; reflexivity|]. repeat constructor; cbn; unfold range, small; cbn; lia. }
  split; [|split].
  - split; [vm_compute; reflexivity|exact L].
  - vm_compute. reflexivity.
  - split; [|split]; (split; [vm_compute; reflexivity|]).
    + constructor; [|constructor]. split; vm_compute; reflexivity.
    + constructor; [exact L|constructor].
    + constructor.
Qed.

(** As long as every read returns exactly one request, the requests are answered in
    order, each exactly once.  Partial: see the refutations for other reads. *)
Theorem c88_one_read_partial : forall DB (handle : DB -> request -> DB * response) qs d,
  Forall ok_req qs -> serve handle d (map enc_req qs) = answers handle d qs.
Proof.
  intros DB handle qs. induction qs as [|q qs IH]; intros d H; [reflexivity|].
  inversion H; subst. cbn [map serve answers]. unfold serve_read.
  rewrite <- (app_nil_r (enc_req q)), rt_req by assumption. destruct (handle d q) as [d1 p].
  rewrite IH by assumption. reflexivity.
Qed.
Print Assumptions c88_one_read_partial.

(** Such reads are possible when no request is longer than the buffer. *)
Theorem c88_one_read_possible_partial : forall qs,
  Forall (fun q => (length (enc_req q) <= srv_read)%nat) qs ->
  arrives srv_read (concat (map enc_req qs)) (map enc_req qs).
Proof. change srv_read with srv_buf.
  intros qs H. split; [reflexivity|]. induction H as [|q qs H _ IH]; [constructor|].
  constructor; [|exact IH]. split; [|exact H]. pose proof (enc_req_cons q). destruct (enc_req q); [contradiction|cbn; lia].
Qed.
Print Assumptions c88_one_read_possible_partial.

(** 'BEGIN; SELECT; COMMIT' over a database that lists what it ran. *)
Example c88_one_read_ex :
  let qs := [BeginTxn 1; Query [83; 69; 76]; Commit] in
  Forall ok_req qs /\ Forall (fun q => (length (enc_req q) <= srv_read)%nat) qs /\
  serve (fun d q => (d ++ [q], Error [])) [] (map enc_req qs) = (qs, [Error []; Error []; Error []]).
Proof. change srv_read with srv_buf.
  cbn zeta. split; [|split].
  - repeat constructor.
  - reads; apply Nat.leb_le; vm_compute; reflexivity.
  - vm_compute. reflexivity.
Qed.

(** The beginning of a request is never taken for another request: it is refused and
    nothing is executed. *)
Theorem c88_cut_request_partial : forall DB (handle : DB -> request -> DB * response) d q c s,
  ok_req q -> enc_req q = c ++ s -> s <> [] -> serve_read handle d c = (d, bad_request).
Proof.
  intros DB handle d q c s H E N. unfold serve_read.
  rewrite (no_prefix dec_req (enc_req q) q c s local_req (rt_req q H) E N). reflexivity.
Qed.
Print Assumptions c88_cut_request_partial.

Example c88_cut_request_ex :
  enc_req (Query [83; 69; 76]) = [0; 3; 83] ++ [69; 76] /\ ok_req (Query [83; 69; 76]).
Proof. split; [reflexivity|split; [reflexivity|vm_compute; reflexivity]]. Qed.

Lemma bad_tag : forall b r, 7 <= b < 128 -> dec_req (b :: r) = None.
Proof.
  intros b r H. unfold dec_req, bind, dec_u32. cbn [dec_var]. destruct (N.ltb_spec b 128); [|lia]. cbn [Nat.eqb andb].
  destruct b as [|b]; [lia|]. do 3 (destruct b as [b|b|]; try reflexivity; try lia).
Qed.

(** A query longer than the server's buffer is not executed, however it is cut into
    reads after its header: printable text gives only errors -- at least two of them, for
    one request. *)
Theorem c88_long_query_refuted : forall DB (handle : DB -> request -> DB * response) d s c cs,
  text s -> Forall (fun b => 7 <= b < 128) s -> (srv_read < length (enc_req (Query s)))%nat ->
  arrives srv_read (enc_req (Query s)) (c :: cs) -> (11 <= length c)%nat ->
  serve handle d (c :: cs) = (d, repeat bad_request (S (length cs))) /\ (1 <= length cs)%nat.
Proof. change srv_read with srv_buf.
  intros DB handle d s c cs T F L [E B] Hc.
  assert (Nc : concat cs <> []).
  { intros E0. cbn [concat] in E. rewrite E0, app_nil_r in E. inversion B; subst. lia. }
  split; [|destruct cs; [contradiction|cbn; lia]].
  cbn [serve repeat].
  rewrite (c88_cut_request_partial DB handle d (Query s) c (concat cs) T (eq_sym E) Nc).
  assert (S : Forall (fun b => 7 <= b < 128) (concat cs)).
  { cbn [concat enc_req] in E. unfold enc_str, enc_blob in E.
    set (h := enc_u64 (N.of_nat (length s))) in E. assert (Hh : (length h <= 10)%nat).
    { unfold h, enc_u64. generalize (N.of_nat (length s)). clear. generalize 10%nat.
      induction n as [|n IH]; intros x; [cbn; lia|]. cbn [enc_var]. destruct (x <? 128); cbn [length]; [lia|].
      specialize (IH (x / 128)). lia. }
    assert (X : skipn (length c) (c ++ concat cs) = skipn (length c) ((0 :: h) ++ s)) by (rewrite E; reflexivity).
    rewrite skipn_app, skipn_all, Nat.sub_diag in X. cbn [app] in X. change (skipn 0 (concat cs)) with (concat cs) in X.
    change (0 :: h ++ s) with ((0 :: h) ++ s) in X.
    rewrite skipn_app, skipn_all2 in X by (cbn [length]; lia). cbn [app] in X. rewrite X. apply Forall_skipn, F. }
  assert (Hcs : forall d, serve handle d cs = (d, repeat bad_request (length cs))).
  { inversion B as [|? ? _ B']; subst. clear - S B'. induction B' as [|c cs Hc B IH]; intros d; [reflexivity|].
    cbn [serve length repeat]. cbn [concat] in S. destruct c as [|b c]; [cbn in Hc; lia|].
    apply Forall_app in S as [S1 S2]. inversion S1; subst. unfold serve_read. rewrite bad_tag by assumption.
    rewrite (IH S2). reflexivity. }
  rewrite Hcs. reflexivity.
Qed.
Print Assumptions c88_long_query_refuted.

(** A query of 1030 letters. *)
Definition ex_long : list N := repeat 97 (N.to_nat 1030).
Lemma text_letters : forall n, text (repeat 97 (N.to_nat n)) <-> n < 2 ^ 64.
Proof.
  intros n. unfold text, small. rewrite repeat_length, N2Nat.id. split; [tauto|]. intros H. split; [|exact H].
  rewrite <- (app_nil_r (repeat _ _)), utf8_ascii; [reflexivity|]. apply Forall_forall. intros x Hx.
  apply repeat_spec in Hx. subst. lia.
Qed.
Example c88_long_query_ex :
  text ex_long /\ Forall (fun b => 7 <= b < 128) ex_long /\ (srv_read < length (enc_req (Query ex_long)))%nat /\
  exists c cs, arrives srv_read (enc_req (Query ex_long)) (c :: cs) /\ (11 <= length c)%nat.
Proof. change srv_read with srv_buf.
  split; [apply text_letters; reflexivity|]. split.
  { apply Forall_forall. intros x Hx. apply repeat_spec in Hx. subst. lia. }
  split; [apply Nat.ltb_lt; vm_compute; reflexivity|].
  exists (firstn srv_buf (enc_req (Query ex_long))), [skipn srv_buf (enc_req (Query ex_long))].
  split; [split|apply Nat.leb_le; vm_compute; reflexivity].
  - cbn [concat]. rewrite app_nil_r. apply firstn_skipn.
  - reads; apply Nat.leb_le; vm_compute; reflexivity.
Qed.

(** Text inside a long query can be executed as a request of its own: for every request
    there is a query text that contains it, and that makes the server execute this request
    and nothing else. *)
Theorem c88_smuggled_request_refuted : forall DB (handle : DB -> request -> DB * response) d q,
  ok_req q -> utf8_ok (enc_req q) = true -> (length (enc_req q) <= srv_read)%nat ->
  exists s reads, text s /\ arrives srv_read (enc_req (Query s)) reads /\
    serve handle d reads = (fst (handle d q), [bad_request; snd (handle d q)]).
Proof. change srv_read with srv_buf.
  intros DB handle d q Hq U L. set (n := N.to_nat 1021). set (s := repeat 97 n ++ enc_req q).
  assert (Ls : N.of_nat (length s) = 1021 + N.of_nat (length (enc_req q))).
  { unfold s, n. rewrite app_length, repeat_length. lia. }
  assert (L' : N.of_nat (length (enc_req q)) <= 1024) by (unfold srv_buf in L; lia).
  assert (T : text s).
  { split; [|unfold small; rewrite Ls; lia]. unfold s. rewrite utf8_ascii; [exact U|]. apply Forall_forall.
    intros x Hx. apply repeat_spec in Hx. subst. lia. }
  set (l := N.of_nat (length s)) in *.
  assert (Hh : enc_u64 l = [l mod 128 + 128; l / 128]).
  { unfold enc_u64. cbn [enc_var]. destruct (N.ltb_spec l 128); [lia|].
    assert (l / 128 < 128) by (apply N.div_lt_upper_bound; lia).
    destruct (N.ltb_spec (l / 128) 128); [|lia]. reflexivity. }
  set (c := 0 :: [l mod 128 + 128; l / 128] ++ repeat 97 n).
  assert (E : enc_req (Query s) = c ++ enc_req q).
  { cbn [enc_req]. unfold enc_str, enc_blob. fold l. rewrite Hh. reflexivity. }
  assert (Lc : length c = srv_buf).
  { unfold c. cbn [length app]. rewrite repeat_length. unfold n, srv_buf. lia. }
  pose proof (enc_req_cons q) as Nq.
  exists s, [c; enc_req q]. split; [exact T|]. split.
  - split; [rewrite E; cbn [concat]; rewrite app_nil_r; reflexivity|].
    reads; try lia.
    + rewrite Lc. unfold srv_buf. lia.
    + destruct (enc_req q); [contradiction|cbn; lia].
  - cbn [serve]. rewrite (c88_cut_request_partial DB handle d (Query s) c (enc_req q) T E Nq).
    unfold serve_read. rewrite <- (app_nil_r (enc_req q)), rt_req by assumption. destruct (handle d q). reflexivity.
Qed.
Print Assumptions c88_smuggled_request_refuted.

(** For instance 'DROP TABLE t', or a COMMIT. *)
Example c88_smuggled_request_ex :
  let q := Query [68; 82; 79; 80; 32; 84; 65; 66; 76; 69; 32; 116] in
  ok_req q /\ utf8_ok (enc_req q) = true /\ (length (enc_req q) <= srv_read)%nat /\
  ok_req Commit /\ utf8_ok (enc_req Commit) = true.
Proof. change srv_read with srv_buf.
  cbn zeta. split; [split; reflexivity|]. split; [reflexivity|]. split; [|split; [exact I|reflexivity]].
  apply Nat.leb_le. vm_compute. reflexivity.
Qed.

(** Two requests that arrive in one read: the second one is neither executed nor
    answered. *)
Theorem c88_second_request_refuted : forall DB (handle : DB -> request -> DB * response) d q1 q2,
  ok_req q1 -> (length (enc_req q1 ++ enc_req q2) <= srv_read)%nat ->
  arrives srv_read (concat (map enc_req [q1; q2])) [enc_req q1 ++ enc_req q2] /\
  serve handle d [enc_req q1 ++ enc_req q2] = (fst (handle d q1), [snd (handle d q1)]).
Proof. change srv_read with srv_buf.
  intros DB handle d q1 q2 H L. split.
  - split; [cbn [map concat]; rewrite !app_nil_r; reflexivity|]. reads; [|exact L].
    pose proof (enc_req_cons q1). rewrite app_length. destruct (enc_req q1); [contradiction|cbn; lia].
  - cbn [serve]. unfold serve_read. rewrite rt_req by assumption. destruct (handle d q1). reflexivity.
Qed.
Print Assumptions c88_second_request_refuted.

Example c88_second_request_ex :
  ok_req Commit /\ (length (enc_req Commit ++ enc_req (Query [97%N])) <= srv_read)%nat.
Proof. change srv_read with srv_buf. split; [exact I|]. apply Nat.leb_le. vm_compute. reflexivity. Qed.

(** ** C89: every call of the client returns the server's answer to it *)

Lemma recv_small : forall p, ok_resp p -> (length (enc_resp p) <= cli_buf)%nat ->
  forall reads rest buf, buf ++ concat reads = enc_resp p -> reads <> [] ->
  Forall (fun c => (1 <= length c)%nat) reads -> recv buf (reads ++ rest) = (Got p, rest).
Proof.
  intros p H L. induction reads as [|c reads IH]; intros rest buf E N F; [contradiction|].
  cbn [recv app]. inversion F as [|? ? Fc Fr]; subst.
  cbn [concat] in E. rewrite app_assoc in E. destruct reads as [|c' reads].
  - cbn [concat] in E. rewrite app_nil_r in E. rewrite E, <- (app_nil_r (enc_resp p)), rt_resp by assumption. reflexivity.
  - assert (Ns : concat (c' :: reads) <> []).
    { inversion Fr; subst. destruct c'; [cbn in *; lia|discriminate]. }
    rewrite (no_prefix dec_resp (enc_resp p) p (buf ++ c) _ local_resp (rt_resp p H) (eq_sym E) Ns).
    destruct (Nat.ltb_spec (length (buf ++ c)) cli_buf) as [_|G].
    + apply IH; [exact E|discriminate|exact Fr].
    + exfalso. rewrite <- E, app_length in L. destruct (concat (c' :: reads)); [contradiction|cbn [length] in L; lia].
Qed.

(** An answer of up to 4096 bytes is received however it is cut into reads, as long as no
    read also returns bytes of the next one; nothing is left over.
    Partial: longer answers are refuted below. *)
Theorem c89_small_answer_partial : forall ps readss,
  Forall ok_resp ps -> Forall (fun p => (length (enc_resp p) <= cli_read)%nat) ps ->
  Forall2 (fun p reads => arrives cli_read (enc_resp p) reads) ps readss ->
  calls (length ps) (concat readss) = map Got ps.
Proof. change cli_read with cli_buf.
  intros ps readss O L F. induction F as [|p reads ps readss [E B] F IH]; [reflexivity|].
  inversion O; subst. inversion L; subst. cbn [length calls concat map].
  rewrite (recv_small p) ; try assumption.
  - f_equal. apply IH; assumption.
  - intros ->. cbn in E. exact (enc_resp_cons p (eq_sym E)).
  - eapply Forall_impl; [|exact B]. cbn. intros c Hc. lia.
Qed.
Print Assumptions c89_small_answer_partial.

(** One row, cut into three reads. *)
Example c89_small_answer_ex :
  let p := Results [[97]] [ex_row] [] in
  (length (enc_resp p) <= cli_read)%nat /\
  arrives cli_read (enc_resp p) [firstn 1 (enc_resp p); firstn 9 (skipn 1 (enc_resp p)); skipn 10 (enc_resp p)] /\
  calls 1 [firstn 1 (enc_resp p); firstn 9 (skipn 1 (enc_resp p)); skipn 10 (enc_resp p)] = [Got p].
Proof. change cli_read with cli_buf.
  cbn zeta. split; [apply Nat.leb_le; vm_compute; reflexivity|]. split.
  - split; [reflexivity|]. reads; apply Nat.leb_le; vm_compute; reflexivity.
  - vm_compute. reflexivity.
Qed.

(** An answer of 8192 bytes or more is never received, however it is cut into reads and
    whatever follows it: the call fails or waits.  (One of more than 4096 bytes is lost
    whenever the first read fills the buffer.) *)
Theorem c89_long_answer_refuted : forall p reads more,
  ok_resp p -> concat reads = enc_resp p ++ more -> Forall (fun c => (1 <= length c <= cli_read)%nat) reads ->
  ((2 * cli_read <= length (enc_resp p))%nat -> fst (recv [] reads) <> Got p /\ forall x, fst (recv [] reads) <> Got x) /\
  (forall c cs, (cli_read < length (enc_resp p))%nat -> reads = c :: cs -> length c = cli_read ->
     recv [] reads = (Failed, cs)).
Proof. change cli_read with cli_buf.
  intros p reads more H E B. split.
  - intros L. assert (X : forall buf, (length buf < cli_buf)%nat -> buf ++ concat reads = enc_resp p ++ more ->
                         forall x, fst (recv buf reads) <> Got x).
    { clear E. induction B as [|c cs Hc B IH]; intros buf Lb E x; [discriminate|].
      cbn [recv]. cbn [concat] in E. rewrite app_assoc in E.
      assert (Lc : (length (buf ++ c) < length (enc_resp p))%nat) by (rewrite app_length; lia).
      assert (D : dec_resp (buf ++ c) = None).
      { apply (no_prefix dec_resp (enc_resp p) p _ (skipn (length (buf ++ c)) (enc_resp p)) local_resp (rt_resp p H)).
        - rewrite <- (firstn_skipn (length (buf ++ c)) (enc_resp p)) at 1. f_equal.
          assert (Y : firstn (length (buf ++ c)) ((buf ++ c) ++ concat cs) = firstn (length (buf ++ c)) (enc_resp p ++ more))
            by (rewrite E; reflexivity).
          rewrite (firstn_app _ (enc_resp p)) in Y.
          replace (length (buf ++ c) - length (enc_resp p))%nat with 0%nat in Y by lia.
          rewrite firstn_O, app_nil_r in Y.
          rewrite firstn_app, Nat.sub_diag, firstn_O, app_nil_r, firstn_all in Y. symmetry. exact Y.
        - intros Z. assert (length (skipn (length (buf ++ c)) (enc_resp p)) = 0%nat) by (rewrite Z; reflexivity).
          rewrite skipn_length in *. lia. }
      rewrite D. destruct (Nat.ltb_spec (length (buf ++ c)) cli_buf); [|discriminate].
      apply IH; assumption. }
    specialize (X []). assert (P : forall x, fst (recv [] reads) <> Got x) by (apply X; [unfold cli_buf; cbn [length]; lia|exact E]).
    split; [apply P|exact P].
  - intros c cs L -> Hc. cbn [recv app]. cbn [concat] in E.
    assert (D : dec_resp c = None).
    { apply (no_prefix dec_resp (enc_resp p) p _ (skipn (length c) (enc_resp p)) local_resp (rt_resp p H)).
      - rewrite <- (firstn_skipn (length c) (enc_resp p)) at 1. f_equal.
        assert (Y : firstn (length c) (c ++ concat cs) = firstn (length c) (enc_resp p ++ more)) by (rewrite E; reflexivity).
        rewrite (firstn_app _ (enc_resp p)) in Y. replace (length c - length (enc_resp p))%nat with 0%nat in Y by lia.
        rewrite firstn_O, app_nil_r in Y. rewrite firstn_app, Nat.sub_diag, firstn_O, app_nil_r, firstn_all in Y. symmetry. exact Y.
      - intros Z. assert (length (skipn (length c) (enc_resp p)) = 0%nat) by (rewrite Z; reflexivity).
        rewrite skipn_length in *. lia. }
    rewrite D. rewrite Hc, Nat.ltb_irrefl. reflexivity.
Qed.
Print Assumptions c89_long_answer_refuted.

(** An answer with 9000 bytes of text. *)
Example c89_long_answer_ex :
  let p := Error (repeat 97 (N.to_nat 9000)) in
  ok_resp p /\ (2 * cli_read <= length (enc_resp p))%nat.
Proof. change cli_read with cli_buf. cbn zeta. split; [apply text_letters; reflexivity|]. apply Nat.leb_le. vm_compute. reflexivity. Qed.

(** After that the client is out of step: its next call returns what the rest of the old
    answer looks like.  For every answer there is a result of one row with one text value
    that makes the next call return this answer. *)
Theorem c89_forged_answer_refuted : forall x,
  ok_resp x -> utf8_ok (enc_resp x) = true -> N.of_nat (length (enc_resp x)) <= 4000 ->
  exists s reads, text s /\
    arrives cli_read (enc_resp (Results [[97]] [[Value (VVar s) (Length (N.of_nat (length s))) true 11]] [])) reads /\
    calls 2 reads = [Failed; Got x].
Proof. change cli_read with cli_buf.
  intros x Hx U L. set (n := N.to_nat 4087). set (s := repeat 97 n ++ enc_resp x).
  set (l := N.of_nat (length s)).
  assert (Ll : l = 4087 + N.of_nat (length (enc_resp x))).
  { unfold l, s, n. rewrite app_length, repeat_length. lia. }
  assert (T : text s).
  { split; [|unfold small; fold l; lia]. unfold s. rewrite utf8_ascii; [exact U|]. apply Forall_forall.
    intros y Hy. apply repeat_spec in Hy. subst. lia. }
  assert (Hh : enc_u64 l = [l mod 128 + 128; l / 128]).
  { unfold enc_u64. cbn [enc_var]. destruct (N.ltb_spec l 128); [lia|].
    assert (l / 128 < 128) by (apply N.div_lt_upper_bound; lia).
    destruct (N.ltb_spec (l / 128) 128); [|lia]. reflexivity. }
  set (r := Results [[97]] [[Value (VVar s) (Length (N.of_nat (length s))) true 11]] []).
  assert (Hr : ok_resp r).
  { split; [|split]; (split; [reflexivity|]).
    - apply Forall_cons; [|apply Forall_nil]. split; reflexivity.
    - apply Forall_cons; [|apply Forall_nil]. split; [reflexivity|]. apply Forall_cons; [|apply Forall_nil].
      split; [exact T|]. split; [cbn [v_size]; fold l; lia|reflexivity].
    - apply Forall_nil. }
  set (c := [0; 1; 1; 97; 1; 1; 11; l mod 128 + 128; l / 128] ++ repeat 97 n).
  set (t := [0; l mod 128 + 128; l / 128; 1; 11; 0; 0]).
  assert (E : enc_resp r = c ++ enc_resp x ++ t).
  { unfold r. cbn [enc_resp]. unfold enc_seq. cbn [length map concat].
    change (enc_u64 (N.of_nat 1)) with [1]. change (enc_u64 (N.of_nat 0)) with [0]. rewrite !app_nil_r.
    unfold enc_value. cbn [v_val v_size v_manage v_type enc_val enc_size].
    change (enc_str [97]) with [1; 97]. unfold enc_str, enc_blob.
    fold l. rewrite Hh. unfold c, t, s. change (enc_type 11) with [11]. cbn [enc_bool].
    rewrite <- !app_assoc. cbn [app]. rewrite <- !app_assoc. reflexivity. }
  assert (Lc : length c = cli_buf).
  { unfold c. rewrite app_length, repeat_length. cbn [length]. unfold n, cli_buf. lia. }
  pose proof (enc_resp_cons x) as Nx.
  exists s, [c; enc_resp x ++ t]. split; [exact T|]. split.
  - split; [fold r; rewrite E; cbn [concat]; rewrite app_nil_r; reflexivity|]. reads.
    + rewrite Lc. unfold cli_buf. lia.
    + rewrite Lc. lia.
    + rewrite app_length. unfold t. cbn [length]. lia.
    + rewrite app_length. unfold t, cli_buf. cbn [length]. lia.
  - cbn [calls]. cbn [recv app].
    rewrite (no_prefix dec_resp (enc_resp r) r c _ local_resp (rt_resp r Hr) E)
      by (destruct (enc_resp x); [contradiction|discriminate]).
    rewrite Lc, Nat.ltb_irrefl. cbn [recv app]. rewrite (rt_resp x Hx). reflexivity.
Qed.
Print Assumptions c89_forged_answer_refuted.

(** For instance an empty result. *)
Example c89_forged_answer_ex :
  ok_resp (Results [] [] []) /\ utf8_ok (enc_resp (Results [] [] [])) = true /\ enc_resp (Results [] [] []) = [0; 0; 0; 0].
Proof.
  split; [|split; reflexivity]. split; [|split]; (split; [reflexivity|apply Forall_nil]).
Qed.

(** A request that takes the server two reads also puts the client out of step: the call
    after it returns the answer to the second part of the first request. *)
Theorem c89_stale_answer_refuted : forall DB (handle : DB -> request -> DB * response) d q1 q2 c1 c2,
  (forall d q, ok_resp (snd (handle d q)) /\ (length (enc_resp (snd (handle d q))) <= cli_read)%nat) ->
  ok_req q1 -> ok_req q2 -> enc_req q1 = c1 ++ c2 -> c2 <> [] ->
  exists d1 p d2, (d1, p) = serve_read handle d c2 /\ d2 = fst (handle d1 q2) /\
    serve handle d [c1; c2; enc_req q2] = (d2, [bad_request; p; snd (handle d1 q2)]) /\
    calls 2 (map enc_resp [bad_request; p; snd (handle d1 q2)]) = [Got bad_request; Got p].
Proof. change cli_read with cli_buf.
  intros DB handle d q1 q2 c1 c2 G H1 H2 E N. destruct (serve_read handle d c2) as [d1 p] eqn:S2.
  exists d1, p, (fst (handle d1 q2)). split; [reflexivity|]. split; [reflexivity|]. split.
  - cbn [serve]. rewrite (c88_cut_request_partial DB handle d q1 c1 c2 H1 E N), S2. unfold serve_read.
    rewrite <- (app_nil_r (enc_req q2)), rt_req by assumption. destruct (handle d1 q2). reflexivity.
  - assert (Ob : ok_resp bad_request) by (split; [reflexivity|vm_compute; reflexivity]).
    assert (Lb : (length (enc_resp bad_request) <= cli_buf)%nat) by (apply Nat.leb_le; vm_compute; reflexivity).
    assert (Op : ok_resp p /\ (length (enc_resp p) <= cli_buf)%nat).
    { unfold serve_read in S2. destruct (dec_req c2) as [[q r]|].
      - specialize (G d q). rewrite S2 in G. exact G.
      - injection S2 as <- <-. split; assumption. }
    cbn [map calls].
    change (enc_resp bad_request :: ?l) with ([enc_resp bad_request] ++ l).
    assert (R : forall p rest, ok_resp p -> (length (enc_resp p) <= cli_buf)%nat ->
      recv [] (enc_resp p :: rest) = (Got p, rest)).
    { intros q rest Oq Lq. change (enc_resp q :: rest) with ([enc_resp q] ++ rest).
      apply recv_small; try assumption; [cbn; apply app_nil_r|discriminate|].
      reads. pose proof (enc_resp_cons q). destruct (enc_resp q); [contradiction|cbn; lia]. }
    cbn [app]. rewrite R by assumption. rewrite R by tauto. reflexivity.
Qed.
Print Assumptions c89_stale_answer_refuted.

Example c89_stale_answer_ex :
  let handle := fun (d : N) (q : request) => (d + 1, Error []) in
  (forall d q, ok_resp (snd (handle d q)) /\ (length (enc_resp (snd (handle d q))) <= cli_read)%nat) /\
  ok_req (Query ex_long) /\ ok_req Commit /\
  enc_req (Query ex_long) = firstn 1024 (enc_req (Query ex_long)) ++ skipn 1024 (enc_req (Query ex_long)) /\
  skipn 1024 (enc_req (Query ex_long)) <> [].
Proof. change cli_read with cli_buf.
  cbn zeta. split.
  { intros d q. split; [split; [reflexivity|vm_compute; reflexivity]|apply Nat.leb_le; vm_compute; reflexivity]. }
  split; [apply text_letters; reflexivity|]. split; [exact I|]. split; [symmetry; apply firstn_skipn|].
  intros H. apply (f_equal (@length N)) in H. vm_compute in H. discriminate.
Qed.

(** ** C90: prepared statements *)

Lemma no_prepared : forall DB run other qs (d : DB),
  snd (prun (DB := DB) run other (d, []) qs) = [].
Proof.
  intros DB run other qs d. unfold prun.
  assert (H : forall st, snd st = [] -> snd (fold_left (fun d q => fst (phandle run other d q)) qs st) = []).
  { induction qs as [|q qs IH]; intros [d0 l] H; [exact H|]. cbn in H. subst. cbn [fold_left]. apply IH.
    destruct q; cbn; try (destruct (run d0 _ _) as [? ?]); try (destruct (other d0 _) as [? ?]); reflexivity. }
  apply H. reflexivity.
Qed.

(** Preparing a statement never succeeds, and executes it: for every database, every
    history of requests and every statement. *)
Theorem c90_prepare_refuted : forall DB run other (d0 : DB) qs s,
  let d := prun (DB := DB) run other (d0, []) qs in
  client_prepare (snd (phandle run other d (Prepare s))) = None /\
  fst (fst (phandle run other d (Prepare s))) = fst (run (fst d) s []).
Proof.
  intros DB run other d0 qs s. cbn zeta. set (d := prun run other (d0, []) qs). cbn [phandle].
  destruct (run (fst d) s []) as [d' x]. cbn. split; [|reflexivity]. destruct x as [[cs rs]|m]; reflexivity.
Qed.
Print Assumptions c90_prepare_refuted.

(** Executing a prepared statement never succeeds, whatever was prepared before; it
    changes nothing. *)
Theorem c90_execute_refuted : forall DB run other (d0 : DB) qs i ps,
  let d := prun (DB := DB) run other (d0, []) qs in
  client_execute (snd (phandle run other d (Execute i ps))) = None /\
  fst (phandle run other d (Execute i ps)) = d.
Proof.
  intros DB run other d0 qs i ps. cbn zeta. pose proof (no_prepared DB run other qs d0) as H.
  set (d := prun run other (d0, []) qs) in *. cbn [phandle]. rewrite H. cbn. split; reflexivity.
Qed.
Print Assumptions c90_execute_refuted.

(** Preparing 'DELETE FROM t' over a database that lists what it ran. *)
Example c90_ex :
  let run := fun (d : list (list N)) s (_ : list value) => (d ++ [s], inl (@nil (list N), @nil (list value))) in
  let other := fun (d : list (list N)) (_ : request) => (d, Error []) in
  phandle run other ([], []) (Prepare [68; 69; 76]) = (([[68; 69; 76]], []), Results [] [] []).
Proof. reflexivity. Qed.
