(** * Table pages: C31, C32, C62 *)
From stdpp Require Import list.
From Coq Require Import NArith Lia ZifyBool ZifyNat ZifyN.
From Verif Require Import Bytes PageModel PageSpec PageProofs PageSerialProofs.
Local Open Scope N_scope.

Local Definition mt (c : N) (ts : option N) : tmeta := TMeta c ts false None.

(** C31, partial: after any calls on a fresh page in which no row is inserted once a row other
    than the newest has been made longer, every row reads back as the accepted calls left it
    (refused calls change nothing), and none of the calls panics.  The full claim has no
    condition on the order. *)
Theorem c31_reads_partial : forall id ops,
  Forall small ops ->
  exists rs p, prun ops (new_page id) = Some (rs, p) /\
    (orderly False ops rs [] ->
     forall k deleted_too, get_tuple id k deleted_too p = row_get (rows_after ops rs []) k deleted_too).
Proof.
  intros id ops Hs. destruct (prun_total ops (new_page id) Hs) as (rs & p & R). exists rs, p. split; [done|].
  intros Ho k del. destruct (prun_pinv2 False ops (new_page id) [] rs p (pinv_new id) Hs R Ho) as [I Hid].
  rewrite <- (pinv_get _ p _ k del I), Hid. done.
Qed.
Print Assumptions c31_reads_partial.

Local Definition ops_ok : list pop :=
  [PInsert (mt 1 None) [7; 8; 9]; PInsert (mt 1 None) [5]; PUpdate 0 (mt 2 None) [6; 6];
   PMeta 0 (mt 2 (Some 300)); PUpdate 1 (mt 2 None) [4; 4; 4; 4]; PInsert (mt 3 None) [1; 2];
   PMeta 1 (TMeta 3 None true None); PUpdate 5 (mt 1 None) [1]; PNext 9].

Local Definition rs_ok : list bool := [true; true; true; true; true; true; true; false; true].

Example c31_reads_ex :
  Forall small ops_ok /\ orderly False ops_ok rs_ok [] /\
  match prun ops_ok (new_page 3) with
  | Some (rs, p) => bool_decide (rs = rs_ok /\
      map (fun k => get_tuple 3 k false p) [0; 1; 2; 3]%nat =
        [Some (mt 2 (Some 300), [6; 6]); None; Some (mt 3 None, [1; 2]); None] /\
      get_tuple 3 1 true p = Some (TMeta 3 None true None, [4; 4; 4; 4]))
  | None => false
  end = true.
Proof.
  split; [repeat constructor; cbn; try lia; intros x Hx; congruence || (injection Hx as <-; lia)|].
  split; [|vm_compute; reflexivity].
  cbn [orderly ops_ok rs_ok].
  repeat split; try (intros _ [m0 [bs0 Hi]]; discriminate Hi);
    intros _ _ H; repeat (destruct H as [H|[_ H]] || destruct H as [H|H]); try contradiction;
    destruct H as (r & Hr & Hl & Hk); cbn in Hr; injection Hr as <-; cbn in *; lia.
Qed.

(** Without the condition it fails: a row that grew is moved below the newest one, and the
    next insert, which starts from the newest row, overwrites it. *)
Theorem c31_reads_refuted :
  ~ (forall id ops rs p k deleted_too,
       Forall small ops -> prun ops (new_page id) = Some (rs, p) ->
       get_tuple id k deleted_too p = row_get (rows_after ops rs []) k deleted_too).
Proof.
  intros H. pose (ops := [PInsert (mt 1 None) [1]; PInsert (mt 1 None) [2]; PUpdate 0 (mt 1 None) [3; 3]; PInsert (mt 1 None) [4; 4]]).
  destruct (prun ops (new_page 3)) as [[rs p]|] eqn:R; [|vm_compute in R; discriminate].
  specialize (H 3 ops rs p 0%nat false).
  assert (Hs : Forall small ops) by (repeat constructor; cbn; try lia; intros x Hx; discriminate).
  specialize (H Hs R). revert H.
  assert (E : match prun ops (new_page 3) with
              | Some (rs, p) => bool_decide (get_tuple 3 0 false p = Some (mt 1 None, [4; 4])
                  /\ row_get (rows_after ops rs []) 0 false = Some (mt 1 None, [3; 3]))
              | None => false end = true) by (vm_compute; reflexivity).
  rewrite R in E. apply bool_decide_eq_true in E as [E1 E2]. rewrite E1, E2. discriminate.
Qed.
Print Assumptions c31_reads_refuted.

(** A tuple of more than 65535 bytes is not refused: its size is cut to 16 bits and copying it
    panics. *)
Theorem c31_huge_update_refuted :
  ~ (forall id ops, exists rs p, prun ops (new_page id) = Some (rs, p)).
Proof.
  intros H. destruct (H 3 [PInsert (mt 1 None) [1]; PUpdate 0 (mt 1 None) (repeat 7 (N.to_nat 65537))]) as (rs & p & R).
  vm_compute in R. discriminate.
Qed.
Print Assumptions c31_huge_update_refuted.

(** C32, partial: after any orderly history in which no metadata is replaced by a longer one,
    reading the written image gives the same header, slots, metadata and rows.  The full claim
    covers every reachable page. *)
Theorem c32_round_trip_partial : forall id ops rs p,
  id < 2 ^ 64 -> Forall small ops -> prun ops (new_page id) = Some (rs, p) ->
  orderly False ops rs [] -> metas_do_not_grow ops rs [] ->
  exists q, deserialize (serialize p) = Some q /\
    (p_id q = id /\ p_next q = p_next p /\ p_prev q = p_prev p /\ p_num q = p_num p /\ p_ndel q = p_ndel p /\ p_info q = p_info p) /\
    forall k deleted_too, get_tuple id k deleted_too q = row_get (rows_after ops rs []) k deleted_too.
Proof.
  intros id ops rs p Hid Hs R Ho Hm. destruct (prun_pinv2 False ops (new_page id) [] rs p (pinv_new id) Hs R Ho) as [I Hpid].
  assert (F : fitted p) by (apply (prun_fitted False ops (new_page id) [] rs p (pinv_new id) Hs (fitted_new id) R Ho Hm)).
  assert (Hh : hinv p) by (apply (prun_hinv ops (new_page id) rs p Hs (hinv_new id Hid) R)).
  eexists. split; [apply (round_trip _ p _ (serialize p) I Hh F); done|]. split; [cbn; rewrite Hpid; done|].
  intros k del. cbn in Hpid. rewrite <- Hpid at 1. apply (round_trip_get _ p _ (serialize p) k del I). done.
Qed.
Print Assumptions c32_round_trip_partial.

Local Definition ops_rt : list pop :=
  [PInsert (mt 200 None) [7; 8; 9]; PInsert (mt 1 (Some 5)) [5]; PUpdate 0 (mt 2 None) [6; 6];
   PMeta 1 (TMeta 3 None true None); PUpdate 1 (mt 2 None) [4; 4; 4; 4]; PInsert (mt 300 (Some 70000)) [1; 2]; PNext 9].
Local Definition rs_rt : list bool := repeat true 7.

Example c32_round_trip_ex :
  Forall small ops_rt /\ orderly False ops_rt rs_rt [] /\ metas_do_not_grow ops_rt rs_rt [] /\
  match prun ops_rt (new_page 3) with
  | Some (rs, p) => bool_decide (rs = rs_rt) &&
      match deserialize (serialize p) with
      | Some q => bool_decide (p_next q = 9 /\ p_num q = 3 /\ get_tuple 3 2 false q = Some (mt 300 (Some 70000), [1; 2]))
      | None => false
      end
  | None => false
  end = true.
Proof.
  split; [repeat constructor; cbn; try lia; intros x Hx; congruence || (injection Hx as <-; lia)|].
  split; [|split; [|vm_compute; reflexivity]].
  - cbn [orderly ops_rt rs_rt repeat].
    repeat split; try (intros _ [m0 [bs0 Hi]]; discriminate Hi);
      intros _ _ H; repeat (destruct H as [H|[_ H]] || destruct H as [H|H]); try contradiction;
      destruct H as (r & Hr & Hl & Hk); cbn in Hr; injection Hr as <-; cbn in *; lia.
  - cbn [metas_do_not_grow ops_rt rs_rt repeat]. repeat split; intros _ r Hr; cbn in Hr; injection Hr as <-; cbn; lia.
Qed.

(** Any page header survives, whatever the values of its fields. *)
Theorem c32_header_round_trip : forall p,
  p_id p < 2 ^ 64 -> p_next p < 2 ^ 64 -> p_prev p < 2 ^ 64 -> p_num p < 2 ^ 16 -> p_ndel p < 2 ^ 16 ->
  header_dec (header_enc p) = (p_id p, p_next p, p_prev p, p_num p, p_ndel p).
Proof.
  intros p A B C D F.
  assert (Hh : hinv (Page (p_id p) (p_next p) (p_prev p) (p_num p) (p_ndel p) [] (p_data p) false)) by (split; done || constructor).
  apply (header_dec_enc _ Hh). done.
Qed.
Print Assumptions c32_header_round_trip.

Example c32_header_round_trip_ex :
  header_dec (header_enc (Page 70000 no_page (2 ^ 63) 65535 300 [] (fun _ => 0) false)) = (70000, no_page, 2 ^ 63, 65535, 300).
Proof. vm_compute. reflexivity. Qed.

(** In general it fails: on a full page, stamping a row with its commit timestamp makes the
    slot directory run into the tuples, and the image cannot be read back at all. *)
Theorem c32_round_trip_refuted :
  ~ (forall id ops rs p,
       id < 2 ^ 64 -> Forall small ops -> prun ops (new_page id) = Some (rs, p) -> orderly False ops rs [] ->
       exists q, deserialize (serialize p) = Some q).
Proof.
  intros H.
  pose (ops := [PInsert (mt 1 None) (repeat 7 (N.to_nat 3500)); PInsert (mt 1 None) (repeat 8 (N.to_nat 543)); PMeta 0 (mt 1 (Some 5))]).
  assert (E : match prun ops (new_page 3) with
              | Some (rs, p) => bool_decide (rs = [true; true; true]) && match deserialize (serialize p) with Some _ => false | None => true end
              | None => false
              end = true) by (vm_compute; reflexivity).
  destruct (prun ops (new_page 3)) as [[rs p]|] eqn:R; [|done]. apply andb_true_iff in E as [E1 E2].
  apply bool_decide_eq_true in E1. subst rs.
  destruct (H 3 ops [true; true; true] p) as [q Hq]; [done| |exact R| |].
  - unfold ops. repeat constructor; cbn [small]; unfold small_meta; cbn [tm_ts tm_creator tm_undo mt]; try lia; intros x Hx; congruence || (injection Hx as <-; lia).
  - unfold ops. cbn [orderly]. repeat split; try (intros _ [m0 [bs0 Hi]]; discriminate Hi);
      intros _ _ Hg; repeat (destruct Hg as [Hg|[_ Hg]] || destruct Hg as [Hg|Hg]); contradiction.
  - rewrite Hq in E2. discriminate.
Qed.
Print Assumptions c32_round_trip_refuted.

(** C62, partial: the bytes the buffer pool writes for a page just after an accepted insert
    hold all its rows, if they are decoded.  The full claim is about what fetching the page
    again returns, at any time. *)
Theorem c62_image_after_insert_partial : forall id ops m bs rs p,
  id < 2 ^ 64 -> Forall small (ops ++ [PInsert m bs]) ->
  prun (ops ++ [PInsert m bs]) (new_page id) = Some (rs ++ [true], p) ->
  orderly False (ops ++ [PInsert m bs]) (rs ++ [true]) [] ->
  exists q, deserialize (image p) = Some q /\ p_next q = p_next p /\ p_prev q = p_prev p /\
    forall k deleted_too, get_tuple id k deleted_too q = row_get (rows_after (ops ++ [PInsert m bs]) (rs ++ [true]) []) k deleted_too.
Proof.
  intros id ops m bs rs p Hid Hs R Ho.
  destruct (prun_insert_image ops m bs id rs p Hid Hs R Ho) as (g & I & Hh & F & Hpid & Hd).
  eexists. split; [apply (round_trip g p _ (image p) I Hh F Hd)|]. do 2 (split; [done|]).
  intros k del. rewrite <- Hpid at 1. apply (round_trip_get g p _ (image p) k del I Hd).
Qed.
Print Assumptions c62_image_after_insert_partial.

Example c62_image_after_insert_ex :
  let ops := [PInsert (mt 1 None) [7; 8; 9]; PMeta 0 (mt 1 (Some 300)); PNext 12] in
  let ops' := ops ++ [PInsert (mt 1 None) [5]] in
  Forall small ops' /\ orderly False ops' [true; true; true; true] [] /\
  match prun ops' (new_page 3) with
  | Some (rs, p) => bool_decide (rs = [true; true; true; true]) &&
      match deserialize (image p) with
      | Some q => bool_decide (p_next q = 12 /\ get_tuple 3 0 false q = Some (mt 1 (Some 300), [7; 8; 9]))
      | None => false
      end
  | None => false
  end = true.
Proof.
  cbv zeta. cbn [app]. split; [repeat constructor; cbn; try lia; intros x Hx; congruence || (injection Hx as <-; lia)|].
  split; [|vm_compute; reflexivity].
  cbn [orderly]. repeat split; try (intros _ [m0 [bs0 Hi]]; discriminate Hi);
    intros _ _ H; repeat (destruct H as [H|[_ H]] || destruct H as [H|H]); contradiction.
Qed.

(** Fetching a page that had left the buffer pool does not decode its bytes: whatever it held,
    the page that comes back has no rows and no successor. *)
Theorem c62_reload_refuted : forall id ops rs p q,
  prun ops (new_page id) = Some (rs, p) -> load id (image p) = Some q ->
  p_next q = no_page /\ forall k deleted_too, get_tuple id k deleted_too q = None.
Proof.
  intros id ops rs p q R L. unfold load in L. destruct (image p 0 =? 2); [|done].
  injection L as <-. split; [done|]. intros k del. unfold get_tuple. cbn. by destruct (id =? id).
Qed.
Print Assumptions c62_reload_refuted.

Example c62_reload_ex :
  let ops := [PInsert (mt 1 None) [7; 8; 9]; PMeta 0 (mt 1 (Some 300)); PNext 12; PInsert (mt 1 None) [5]] in
  match prun ops (new_page 3) with
  | Some (rs, p) => bool_decide (get_tuple 3 0 false p = Some (mt 1 (Some 300), [7; 8; 9])) &&
      match load 3 (image p) with Some q => bool_decide (get_tuple 3 0 false q = None) | None => false end
  | None => false
  end = true.
Proof. vm_compute. reflexivity. Qed.

(** Nor do the bytes hold what happened since the last insert: the commit timestamp and the
    link to the next page are not in the image. *)
Theorem c62_stale_image_refuted :
  ~ (forall id ops rs p q,
       id < 2 ^ 64 -> Forall small ops -> orderly False ops rs [] -> metas_do_not_grow ops rs [] ->
       prun ops (new_page id) = Some (rs, p) -> deserialize (image p) = Some q ->
       p_next q = p_next p /\ forall k deleted_too, get_tuple id k deleted_too q = row_get (rows_after ops rs []) k deleted_too).
Proof.
  intros H. pose (ops := [PInsert (mt 1 (Some 3)) [7; 8; 9]; PMeta 0 (mt 1 (Some 5)); PNext 12]).
  assert (E : match prun ops (new_page 3) with
              | Some (rs, p) => bool_decide (rs = [true; true; true]) && match deserialize (image p) with
                  | Some q => bool_decide (get_tuple 3 0 false q = Some (mt 1 (Some 3), [7; 8; 9])) | None => false end
              | None => false
              end = true) by (vm_compute; reflexivity).
  destruct (prun ops (new_page 3)) as [[rs p]|] eqn:R; [|done]. apply andb_true_iff in E as [E1 E2].
  apply bool_decide_eq_true in E1. subst rs. destruct (deserialize (image p)) as [q|] eqn:Eq; [|done].
  apply bool_decide_eq_true in E2.
  destruct (H 3 ops [true; true; true] p q) as [_ Hk]; [done| | | |exact R|exact Eq|].
  - unfold ops. repeat constructor; cbn [small]; unfold small_meta; cbn [tm_ts tm_creator tm_undo mt]; try lia; intros x Hx; congruence || (injection Hx as <-; lia).
  - unfold ops. cbn [orderly]. repeat split; try (intros _ [m0 [bs0 Hi]]; discriminate Hi);
      intros _ _ Hg; repeat (destruct Hg as [Hg|[_ Hg]] || destruct Hg as [Hg|Hg]); contradiction.
  - unfold ops. cbn [metas_do_not_grow]. repeat split; intros _ r Hr; cbn in Hr; injection Hr as <-; cbn; lia.
  - specialize (Hk 0%nat false). rewrite E2 in Hk. vm_compute in Hk. discriminate.
Qed.
Print Assumptions c62_stale_image_refuted.
