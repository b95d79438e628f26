(** * The hash index (C42) *)
From Coq Require Import NArith Lia.
From stdpp Require Import gmap list.
From Verif Require Import HtabSpec HtabModel HtabProofs.
Local Open Scope N_scope.

(** ** C42: a lookup finds what was inserted *)
(** For every hash function, every sizes and depths and every sequence of calls, allocations failing or not: unless an insert splits a
    bucket at an index beyond the bucket's local depth, or a remove merges two buckets, every answer is right. *)
Theorem hash_index_partial {K V} `{EqDecision K} (hash : K -> N) (p hdepth dmax bmax : N) (cs : list (call K V * list bool))
  (as' : list (answer V)) (s' : htab K V) :
  p + 3 + 10 * N.of_nat (length cs) < 2 ^ 64 ->
  calls hash (htab_new p hdepth dmax bmax) cs = (as', s', false) ->
  exists m, all_right [] (map fst cs) as' m.
Proof.
  intros Hn Hc. assert (no_page + 1 = 2 ^ 64) as Enp by done. destruct (inv_new (K:=K) (V:=V) hash p hdepth dmax bmax) as [d I]; [lia|].
  destruct (calls_right hash cs _ _ _ _ as' s' I) as (m & d' & H & _); [cbn [t_next htab_new]; lia|done|]. by exists m.
Qed.
Print Assumptions hash_index_partial.

(** Inserting fails, when pages can be allocated, only if a bucketful of entries share the low bits of the key's hash that the
    directory can tell apart. *)
Theorem hash_index_refuses_partial {K V} `{EqDecision K} (hash : K -> N) (p hdepth dmax bmax : N) (cs : list (call K V * list bool))
  (as' : list (answer V)) (s s' : htab K V) (k : K) (v : V) :
  dmax <= 9 -> p + 3 + 10 * (N.of_nat (length cs) + 1) < 2 ^ 64 ->
  calls hash (htab_new p hdepth dmax bmax) cs = (as', s, false) -> insert hash s k v [] = (false, s', false) ->
  exists m, all_right [] (map fst cs) as' m /\
    bmax <= N.of_nat (length (filter (fun e : K * V => hash e.1 mod 2 ^ dmax = hash k mod 2 ^ dmax) m)).
Proof.
  intros Hd Hn Hc Hi. assert (no_page + 1 = 2 ^ 64) as Enp by done. destruct (inv_new (K:=K) (V:=V) hash p hdepth dmax bmax) as [d I]; [lia|].
  destruct (calls_right hash cs _ _ _ _ as' s I) as (m & d' & H1 & H2 & H3 & H4 & H5); [cbn [t_next htab_new]; lia|done|]. exists m. split; [done|].
  destruct (inv_insert hash 10 _ _ _ _ k v [] false false s' false H2) as (_ & _ & _ & _ & H6).
  - cbn [htab_new t_next] in H5. lia.
  - exact Hi.
  - done.
  - cbn [htab_new t_bmax t_dmax] in *. rewrite H3, H4 in H6. apply H6; [done| |lia]. intros x Hx. by apply elem_of_nil in Hx.
Qed.
Print Assumptions hash_index_refuses_partial.

(** Splits, a refused insert, a key inserted twice, removes: buckets of two entries, one level of directory. *)
Definition cs_a : list (call N N * list bool) :=
  [(CInsert 0 10, []); (CInsert 1 11, []); (CInsert 2 12, []); (CInsert 0 13, []); (CGet 0, []); (CRemove 0, []); (CInsert 0 13, []); (CGet 0, []);
   (CGet 2, []); (CRemove 5, []); (CGet 1, [])].
Example hash_index_partial_ex :
  let '(as', s', o) := calls (fun k : N => k) (htab_new 0 1 1 2) cs_a in
  o = false /\ as' = [ADone true; ADone true; ADone true; ADone false; AValue (Some 10); ADone true; ADone true; AValue (Some 13);
    AValue (Some 12); ADone false; AValue (Some 11)].
Proof. vm_compute. done. Qed.
Example hash_index_refuses_partial_ex :
  let '(_, s, o) := calls (fun k : N => k) (htab_new (V := N) 0 1 1 2) (take 3 cs_a) in
  o = false /\ (insert (fun k : N => k) s 0 13 []).1.1 = false /\ (insert (fun k : N => k) s 0 13 []).2 = false.
Proof. vm_compute. done. Qed.

(** *** Inserting alone loses entries *)
(** Keys that are their own hash, one entry per bucket: after 0, 2, 1 and 3 have been inserted, each with success, 1 is not found. *)
Theorem hash_index_split_refuted :
  exists (ks : list N) (k : N), k ∈ ks /\ NoDup ks /\
    let '(as', s', _) := calls (fun k : N => k) (htab_new 0 0 9 1) (map (fun k => (CInsert k k, [])) ks) in
    as' = map (fun _ => ADone true) ks /\ get_value (fun k : N => k) s' k = None.
Proof.
  exists [0; 2; 1; 3], 1. split; [by do 2 right; left|]. split; [apply (bool_decide_unpack _); vm_compute; exact I|]. vm_compute. done.
Qed.
Print Assumptions hash_index_split_refuted.

(** *** Removing one key loses another *)
(** The bucket that became empty is merged with its buddy, and the buddy's page is deleted. *)
Theorem hash_index_remove_refuted :
  exists (k k' : N), k <> k' /\
    (calls (fun k : N => k) (htab_new 0 0 9 1) [(CInsert k k, []); (CInsert k' k', []); (CGet k', []); (CRemove k, []); (CGet k', [])]).1.1 =
    [ADone true; ADone true; AValue (Some k'); ADone true; AValue None].
Proof. exists 0, 1. split; [done|]. vm_compute. done. Qed.
Print Assumptions hash_index_remove_refuted.

(** *** Nothing survives eviction *)
(** Whatever the table holds: once the buffer pool has evicted a key's bucket page, or the directory page, or the header page, the key
    is not found. *)
Theorem hash_index_evicted_refuted {K V} `{EqDecision K} (hash : K -> N) (s : htab K V) (k : K) :
  (forall dp d p b, dir_page s (hash k) = Some (dp, d) -> bucket_page s d (hash_to_bucket (hash k) d) = Some (p, b) ->
     get_value hash (evict_bucket p s) k = None) /\
  (forall dp d, dir_page s (hash k) = Some (dp, d) -> get_value hash (evict_dir dp s) k = None) /\
  get_value hash (evict_header s) k = None.
Proof.
  split; [|split].
  - intros dp d p b H1 H2. unfold bucket_page in H2. unfold evict_bucket.
    destruct (N.eqb_spec (d_page d (hash_to_bucket (hash k) d)) no_page) as [|E]; [done|].
    destruct (t_bucks s !! d_page d (hash_to_bucket (hash k) d)) as [b0|] eqn:Eb; [|done]. assert (d_page d (hash_to_bucket (hash k) d) = p) as Ep by congruence.
    rewrite Ep in *. rewrite Eb. unfold get_value.
    replace (dir_page _ (hash k)) with (Some (dp, d)) by (symmetry; exact H1).
    unfold bucket_page. rewrite Ep, (proj2 (N.eqb_neq _ _) E). cbn [set_bucks t_bucks]. rewrite lookup_insert. done.
  - intros dp d H1. unfold dir_page in H1. destruct (N.eqb_spec (h_dirs (t_head s) (hash_to_dir (hash k) (t_head s))) no_page) as [|E]; [done|].
    destruct (t_dirs s !! h_dirs (t_head s) (hash_to_dir (hash k) (t_head s))) as [d0|] eqn:Ed; [|done].
    assert (h_dirs (t_head s) (hash_to_dir (hash k) (t_head s)) = dp) as Ep by congruence.
    unfold evict_dir. rewrite Ep in *. rewrite Ed. unfold get_value, dir_page. cbn [set_dir t_head t_dirs]. rewrite Ep, (proj2 (N.eqb_neq _ _) E), lookup_insert. done.
  - done.
Qed.
Print Assumptions hash_index_evicted_refuted.
Example hash_index_evicted_ex :
  let s := (calls (fun k : N => k) (htab_new 0 0 9 1) [(CInsert 5 50, [])]).1.2 in
  get_value (fun k : N => k) s 5 = Some 50 /\ get_value (fun k : N => k) (evict_bucket 2 s) 5 = None /\
  get_value (fun k : N => k) (evict_dir 1 s) 5 = None.
Proof. vm_compute. done. Qed.
