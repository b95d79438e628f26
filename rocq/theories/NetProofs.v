(** * Proofs about the wire protocol *)
From Coq Require Import NArith ZArith List Bool Lia.
From Verif Require Import Bytes NetModel NetSpec.
Import ListNotations.
Open Scope N_scope.

(** ** Round trips *)

Definition rt {A} (e : list N) (d : dec A) (a : A) : Prop := forall r, d (e ++ r) = Some (a, r).

Lemma rt_ret {A} (a : A) : rt [] (ret a) a.
Proof. intros r. reflexivity. Qed.
Lemma rt_bind {A B} e1 e2 (d : dec A) (f : A -> dec B) a b :
  rt e1 d a -> rt e2 (f a) b -> rt (e1 ++ e2) (bind d f) b.
Proof. intros H1 H2 r. unfold bind. rewrite <- app_assoc, H1. apply H2. Qed.
Lemma rt_map {A B} e (d : dec A) (f : A -> B) a : rt e d a -> rt e (bind d (fun x => ret (f x))) (f a).
Proof. intros H r. unfold bind. rewrite H. reflexivity. Qed.

Lemma rt_var k m x : x < (m + 1) * 128 ^ N.of_nat k -> m < 128 -> rt (enc_var (S k) x) (dec_var (S k) m) x.
Proof.
  revert x. induction k as [|k IH]; intros x H Hm r.
  - cbn [enc_var]. change (128 ^ N.of_nat 0) with 1 in H. destruct (N.ltb_spec x 128); [|lia].
    cbn [app dec_var]. destruct (N.ltb_spec x 128); [|lia]. cbn [Nat.eqb].
    destruct (N.ltb_spec m x); [lia|]. reflexivity.
  - set (k' := S k) in *. cbn [enc_var]. destruct (N.ltb_spec x 128) as [L|L].
    + cbn [app dec_var]. destruct (N.ltb_spec x 128); [|lia]. reflexivity.
    + cbn [app]. cbn [dec_var]. destruct (N.ltb_spec (x mod 128 + 128) 128) as [L2|_]; [exfalso; revert L2; generalize (x mod 128); lia|].
      rewrite IH; [| |exact Hm].
      * do 2 f_equal. replace (x mod 128 + 128) with (x mod 128 + 1 * 128) by lia.
        rewrite N.mod_add by lia. rewrite N.mod_mod by lia.
        rewrite N.add_comm. symmetry. apply N.div_mod. lia.
      * apply N.div_lt_upper_bound; [lia|]. unfold k' in H. rewrite Nat2N.inj_succ, N.pow_succ_r' in H. lia.
Qed.

Lemma rt_u16 x : x < 2 ^ 16 -> rt (enc_u16 x) dec_u16 x.
Proof. intros H. apply (rt_var 2 3); [|lia]. change ((3 + 1) * 128 ^ N.of_nat 2) with (2 ^ 16). exact H. Qed.
Lemma rt_u32 x : x < 2 ^ 32 -> rt (enc_u32 x) dec_u32 x.
Proof. intros H. apply (rt_var 4 15); [|lia]. change ((15 + 1) * 128 ^ N.of_nat 4) with (2 ^ 32). exact H. Qed.
Lemma rt_u64 x : x < 2 ^ 64 -> rt (enc_u64 x) dec_u64 x.
Proof. intros H. apply (rt_var 9 1); [|lia]. change ((1 + 1) * 128 ^ N.of_nat 9) with (2 ^ 64). exact H. Qed.

Lemma unzigzag_zigzag z : unzigzag (zigzag z) = z.
Proof.
  unfold zigzag, unzigzag. destruct (Z.ltb_spec z 0).
  - replace (Z.to_N (-2 * z - 1)) with (1 + Z.to_N (- z - 1) * 2) by lia.
    rewrite N.even_add, N.even_mul, orb_true_r. cbn [N.even Bool.eqb].
    rewrite N.div_add by lia. change (1 / 2) with 0. lia.
  - replace (Z.to_N (2 * z)) with (2 * Z.to_N z) by lia. rewrite N.even_mul. cbn [N.even orb].
    rewrite N.mul_comm, N.div_mul by lia. lia.
Qed.
Lemma zigzag_bound b z : range (Z.of_N b) z -> zigzag z < 2 * b.
Proof. unfold range, zigzag. intros H. destruct (Z.ltb_spec z 0); lia. Qed.

Lemma rt_i16 z : range (2 ^ 15) z -> rt (enc_i16 z) dec_i16 z.
Proof.
  intros H. unfold enc_i16, dec_i16. rewrite <- (unzigzag_zigzag z) at 2. apply (rt_map _ _ unzigzag), rt_u16.
  apply (zigzag_bound (2 ^ 15)). exact H.
Qed.
Lemma rt_i32 z : range (2 ^ 31) z -> rt (enc_i32 z) dec_i32 z.
Proof.
  intros H. unfold enc_i32, dec_i32. rewrite <- (unzigzag_zigzag z) at 2. apply (rt_map _ _ unzigzag), rt_u32.
  apply (zigzag_bound (2 ^ 31)). exact H.
Qed.
Lemma rt_i64 z : range (2 ^ 63) z -> rt (enc_i64 z) dec_i64 z.
Proof.
  intros H. unfold enc_i64, dec_i64. rewrite <- (unzigzag_zigzag z) at 2. apply (rt_map _ _ unzigzag), rt_u64.
  apply (zigzag_bound (2 ^ 63)). exact H.
Qed.
Lemma rt_i8 z : range (2 ^ 7) z -> rt (enc_i8 z) dec_i8 z.
Proof.
  intros H r. unfold range in H. unfold enc_i8, dec_i8, bind, ret. cbn [app dec_byte]. do 2 f_equal.
  destruct (Z.ltb_spec z 0).
  - replace (z mod 256)%Z with (z + 256)%Z.
    2:{ apply (Z.mod_unique _ _ (-1)); lia. }
    destruct (N.ltb_spec (Z.to_N (z + 256)) 128); lia.
  - rewrite Z.mod_small by lia. destruct (N.ltb_spec (Z.to_N z) 128); lia.
Qed.
Lemma rt_bool b : rt (enc_bool b) dec_bool b.
Proof. intros r. destruct b; reflexivity. Qed.
Lemma rt_bytes s : rt s (dec_bytes (length s)) s.
Proof.
  intros r. unfold dec_bytes. rewrite app_length. destruct (Nat.leb_spec (length s) (length s + length r)); [|lia].
  rewrite firstn_app, firstn_all, Nat.sub_diag, firstn_O, app_nil_r.
  rewrite skipn_app, skipn_all, Nat.sub_diag, skipn_O. reflexivity.
Qed.
Lemma rt_f k x : x < 256 ^ N.of_nat k -> rt (le_enc k x) (dec_f k) x.
Proof.
  intros H. unfold dec_f. rewrite <- (le_dec_enc k x H) at 2. apply (rt_map _ _ le_dec).
  rewrite <- (le_enc_length k x) at 2. apply rt_bytes.
Qed.
Lemma rt_blob s : small (length s) -> rt (enc_blob s) dec_blob s.
Proof.
  intros H. unfold enc_blob, dec_blob. eapply rt_bind; [apply rt_u64; exact H|]. intros r.
  destruct (N.leb_spec (N.of_nat (length s)) (N.of_nat (length (s ++ r)))) as [L|L].
  - rewrite Nnat.Nat2N.id. apply rt_bytes.
  - rewrite app_length in L. lia.
Qed.
Lemma rt_str s : text s -> rt (enc_str s) dec_str s.
Proof.
  intros [H1 H2]. unfold dec_str. unfold enc_str. rewrite <- (app_nil_r (enc_blob s)).
  eapply rt_bind; [apply rt_blob; exact H2|]. rewrite H1. apply rt_ret.
Qed.

Lemma rt_n {A} (P : A -> Prop) (e : A -> list N) (d : dec A) :
  (forall a, P a -> rt (e a) d a) -> forall l f, Forall P l -> (length l < f)%nat ->
  rt (concat (map e l)) (dec_n d f (N.of_nat (length l))) l.
Proof.
  intros H. induction l as [|a l IH]; intros f Hl Hf.
  - destruct f; [cbn in Hf; lia|]. apply rt_ret.
  - destruct f as [|f]; [cbn in Hf; lia|]. cbn [dec_n length map concat].
    destruct (N.eqb_spec (N.of_nat (S (length l))) 0); [lia|].
    inversion Hl; subst. eapply rt_bind; [apply H; assumption|].
    replace (N.of_nat (S (length l)) - 1) with (N.of_nat (length l)) by lia.
    apply rt_map. apply IH; [assumption|]. cbn in Hf. lia.
Qed.
Lemma concat_ge {A} (e : A -> list N) l : (forall a, e a <> []) -> (length l <= length (concat (map e l)))%nat.
Proof.
  intros H. induction l as [|a l IH]; [cbn; lia|]. cbn. rewrite app_length. specialize (H a).
  destruct (e a); [contradiction|]. cbn. lia.
Qed.
Lemma rt_seq {A} (P : A -> Prop) (e : A -> list N) (d : dec A) :
  (forall a, P a -> rt (e a) d a) -> (forall a, e a <> []) -> forall l, ok_list P l -> rt (enc_seq e l) (dec_seq d) l.
Proof.
  intros H Hn l [H1 H2]. unfold enc_seq, dec_seq. eapply rt_bind; [apply rt_u64; exact H1|].
  intros r. apply (rt_n P e d H l); [exact H2|]. pose proof (concat_ge e l Hn). rewrite app_length. lia.
Qed.

(** A message: a tag below 128, then the rest. *)
Lemma tag_cons {A} t (f : N -> dec A) a e : t < 128 -> rt e (f t) a -> rt (t :: e) (bind dec_u32 f) a.
Proof.
  intros Ht H. change (t :: e) with ([t] ++ e). eapply rt_bind; [|exact H].
  intros r. unfold dec_u32. cbn [app dec_var]. destruct (N.ltb_spec t 128); [|lia]. reflexivity.
Qed.

Lemma enc_var_cons k x : enc_var (S k) x <> [].
Proof. cbn. destruct (x <? 128); discriminate. Qed.
Lemma enc_str_cons s : enc_str s <> [].
Proof. unfold enc_str, enc_blob, enc_u64. pose proof (enc_var_cons 9 (N.of_nat (length s))). destruct (enc_var 10 _); [contradiction|discriminate]. Qed.
Lemma enc_seq_cons {A} (e : A -> list N) l : enc_seq e l <> [].
Proof. unfold enc_seq, enc_u64. pose proof (enc_var_cons 9 (N.of_nat (length l))). destruct (enc_var 10 _); [contradiction|discriminate]. Qed.
Lemma enc_value_cons v : enc_value v <> [].
Proof. unfold enc_value. destruct (v_val v); discriminate. Qed.

Lemma rt_val v : ok_val v -> rt (enc_val v) dec_val v.
Proof.
  intros H. unfold dec_val.
  destruct v; cbn [enc_val]; (apply tag_cons; [lia|]); cbn [ok_val] in H; try apply rt_ret.
  1: apply (rt_map _ _ VBool), rt_bool.
  1: apply (rt_map _ _ VTiny), rt_i8, H.
  1: apply (rt_map _ _ VSmall), rt_i16, H.
  1: apply (rt_map _ _ VInt), rt_i32, H.
  1: apply (rt_map _ _ VBig), rt_i64, H.
  1: apply (rt_map _ _ VDec), rt_f, H.
  1: apply (rt_map _ _ VFloat), rt_f, H.
  1: apply (rt_map _ _ VTs), rt_u64, H.
  1: apply (rt_map _ _ VDate), rt_i32, H.
  1: apply (rt_map _ _ VTime), rt_i32, H.
  1: apply (rt_map _ _ VInterval), rt_i64, H.
  1: apply (rt_map _ _ VVar), rt_str, H.
  1: apply (rt_map _ _ VConst), rt_str, H.
  1: apply (rt_map _ _ VBin), rt_blob, H.
  1: apply (rt_map _ _ VJson), rt_str, H.
  1: apply (rt_map _ _ VUuid), rt_str, H.
  - destruct H as [H1 H2]. eapply rt_bind; [apply rt_i32, H1|]. apply (rt_map _ _ (VEnum z)), rt_str, H2.
  - destruct H as [H1 H2]. eapply rt_bind; [apply rt_f, H1|]. apply (rt_map _ _ (VPoint x)), rt_f, H2.
Qed.
Lemma rt_type t : t < 22 -> rt (enc_type t) dec_type t.
Proof.
  intros H. unfold enc_type, dec_type. rewrite <- (app_nil_r (enc_u32 t)). eapply rt_bind.
  - apply rt_u32. lia.
  - cbn beta. destruct (N.ltb_spec t 22); [|lia]. apply rt_ret.
Qed.
Lemma rt_value v : ok_value v -> rt (enc_value v) dec_value v.
Proof.
  intros (H1 & H2 & H3). destruct v as [x s m t]. cbn [v_val v_size v_type] in *. unfold enc_value, dec_value.
  cbn [v_val v_size v_manage v_type]. eapply rt_bind; [apply rt_val, H1|]. apply rt_bind with (a := s).
  { destruct s as [n|u]; unfold dec_size; cbn [enc_size]; (apply tag_cons; [lia|]).
    - apply (rt_map _ _ Length), rt_u64, H2.
    - apply (rt_map _ _ Elem), rt_type, H2. }
  eapply rt_bind; [apply rt_bool|]. eapply rt_bind; [apply rt_type, H3|]. intros r. reflexivity.
Qed.

Lemma rt_req q : ok_req q -> rt (enc_req q) dec_req q.
Proof.
  intros H. unfold dec_req. destruct q; cbn [enc_req]; (apply tag_cons; [lia|]); cbn [ok_req] in H; try apply rt_ret.
  - apply (rt_map _ _ Query), rt_str, H.
  - rewrite <- (app_nil_r (enc_u32 level)). eapply rt_bind; [apply rt_u32; lia|]. cbn beta.
    destruct (N.ltb_spec level 5); [|lia]. apply rt_ret.
  - apply (rt_map _ _ Prepare), rt_str, H.
  - destruct H as [H1 H2]. eapply rt_bind; [apply rt_u64, H1|]. apply (rt_map _ _ (Execute id)).
    apply (rt_seq ok_value); [exact rt_value|exact enc_value_cons|exact H2].
  - apply (rt_map _ _ Close), rt_u64, H.
Qed.
Lemma rt_resp p : ok_resp p -> rt (enc_resp p) dec_resp p.
Proof.
  intros H. unfold dec_resp. destruct p; cbn [enc_resp]; (apply tag_cons; [lia|]); cbn [ok_resp] in H.
  - destruct H as (H1 & H2 & H3). eapply rt_bind; [|eapply rt_bind].
    + apply (rt_seq text); [exact rt_str|exact enc_str_cons|exact H1].
    + apply (rt_seq (ok_list ok_value)); [|exact (enc_seq_cons enc_value)|exact H2].
      apply (rt_seq ok_value); [exact rt_value|exact enc_value_cons].
    + apply (rt_map _ _ (Results columns rows)). apply (rt_seq text); [exact rt_str|exact enc_str_cons|exact H3].
  - destruct H as [H1 H2]. eapply rt_bind; [apply rt_u64, H1|]. apply (rt_map _ _ (PrepareOk id)).
    apply (rt_seq (fun t => t < 22)); [exact rt_type|intros a; apply enc_var_cons|exact H2].
  - apply (rt_map _ _ Error), rt_str, H.
Qed.

(** ** A decoder that succeeds does not look further *)

Definition local {A} (d : dec A) : Prop :=
  forall bs a r, d bs = Some (a, r) -> (length r <= length bs)%nat /\ forall x, d (bs ++ x) = Some (a, r ++ x).

Lemma local_ret {A} (a : A) : local (ret a).
Proof. intros bs b r H. injection H as <- <-. split; [lia|reflexivity]. Qed.
Lemma local_fail {A} : local (@fail A).
Proof. intros bs b r H. discriminate. Qed.
Lemma local_bind {A B} (d : dec A) (f : A -> dec B) : local d -> (forall a, local (f a)) -> local (bind d f).
Proof.
  intros H1 H2 bs b r E. unfold bind in *. destruct (d bs) as [[a r1]|] eqn:E1; [|discriminate].
  apply H1 in E1 as [L1 X1]. apply H2 in E as [L2 X2]. split; [lia|]. intros x. rewrite X1. apply X2.
Qed.
Lemma local_var k m : local (dec_var k m).
Proof.
  induction k as [|k IH]; intros bs a r H; cbn [dec_var] in H; [discriminate|].
  destruct bs as [|b bs]; [discriminate|]. cbn [app length dec_var]. destruct (b <? 128).
  - destruct (_ && _); [discriminate|]. injection H as <- <-. split; [lia|reflexivity].
  - destruct (dec_var k m bs) as [[y r']|] eqn:E; [|discriminate]. injection H as <- <-.
    apply IH in E as [L X]. split; [lia|]. intros x. rewrite X. reflexivity.
Qed.
Lemma local_byte : local dec_byte.
Proof. intros bs a r H. destruct bs; [discriminate|]. injection H as <- <-. split; [cbn; lia|reflexivity]. Qed.
Lemma local_bytes n : local (dec_bytes n).
Proof.
  intros bs a r H. unfold dec_bytes in *. destruct (Nat.leb_spec n (length bs)); [|discriminate].
  injection H as <- <-. split; [rewrite skipn_length; lia|]. intros x. rewrite app_length.
  destruct (Nat.leb_spec n (length bs + length x)); [|lia].
  rewrite firstn_app, skipn_app. replace (n - length bs)%nat with 0%nat by lia. cbn. rewrite app_nil_r. reflexivity.
Qed.
Lemma local_blob : local dec_blob.
Proof.
  apply local_bind; [apply local_var|]. intros n bs a r H.
  destruct (N.leb_spec n (N.of_nat (length bs))); [|discriminate].
  apply local_bytes in H as [L X]. split; [exact L|]. intros x.
  destruct (N.leb_spec n (N.of_nat (length (bs ++ x)))) as [_|L2]; [apply X|]. rewrite app_length in L2. lia.
Qed.
Ltac loc := repeat first
  [ apply local_ret | apply local_fail | apply local_var | apply local_byte | apply local_blob | apply local_bytes
  | lazymatch goal with |- local (bind _ _) => apply local_bind; [|intros ?] end
  | match goal with |- local (if ?b then _ else _) => destruct b end ].
Lemma local_str : local dec_str.
Proof. unfold dec_str. loc. Qed.
Lemma dec_n_mono {A} (d : dec A) f f' n bs x :
  (f <= f')%nat -> dec_n d f n bs = Some x -> dec_n d f' n bs = Some x.
Proof.
  revert f' n bs x. induction f as [|f IH]; intros f' n bs x L H; [discriminate|].
  destruct f' as [|f']; [lia|]. cbn [dec_n] in *. destruct (n =? 0); [exact H|].
  unfold bind in *. destruct (d bs) as [[a r]|]; [|discriminate].
  destruct (dec_n d f (n - 1) r) as [[l r']|] eqn:E; [|discriminate].
  rewrite (IH f' _ _ _ ltac:(lia) E). exact H.
Qed.
Lemma local_n {A} (d : dec A) f n : local d -> local (dec_n d f n).
Proof.
  intros H. revert n. induction f as [|f IH]; intros n; cbn [dec_n]; [apply local_fail|].
  destruct (n =? 0); [apply local_ret|]. apply local_bind; [exact H|]. intros a.
  apply local_bind; [apply IH|]. intros l. apply local_ret.
Qed.
Lemma local_seq {A} (d : dec A) : local d -> local (dec_seq d).
Proof.
  intros H. apply local_bind; [apply local_var|]. intros n bs a r E.
  apply (local_n d _ _ H) in E as [L X]. split; [exact L|]. intros x.
  apply (dec_n_mono d (S (length bs))); [rewrite app_length; lia|apply X].
Qed.
Lemma local_type : local dec_type.
Proof. unfold dec_type. loc. Qed.
Lemma local_tag {A} (f : N -> dec A) : (forall t, local (f t)) -> local (bind dec_u32 f).
Proof. intros H. apply local_bind; [apply local_var|exact H]. Qed.
Ltac tags t := destruct t as [|t]; [|repeat (destruct t as [t|t|]; try apply local_fail)]; loc.
Lemma local_val : local dec_val.
Proof. apply local_tag. intros t. unfold dec_bool, dec_i8, dec_i16, dec_i32, dec_i64, dec_f, dec_str. tags t. Qed.
Lemma local_size : local dec_size.
Proof. apply local_tag. intros t. tags t. apply local_type. Qed.
Lemma local_value : local dec_value.
Proof.
  unfold dec_value. apply local_bind; [apply local_val|]. intros v. apply local_bind; [apply local_size|]. intros s.
  unfold dec_bool, dec_type. loc.
Qed.
Lemma local_req : local dec_req.
Proof. apply local_tag. intros t. unfold dec_str. tags t. apply local_seq, local_value. Qed.
Lemma local_resp : local dec_resp.
Proof.
  apply local_tag. intros t. unfold dec_str at 3. tags t; repeat apply local_seq;
  first [apply local_str | apply local_value | apply local_type].
Qed.

(** ** A part of a message is not a message *)

Lemma no_prefix {A} (d : dec A) e a p s :
  local d -> rt e d a -> e = p ++ s -> s <> [] -> d p = None.
Proof.
  intros L R E N. destruct (d p) as [[b r]|] eqn:D; [|reflexivity]. apply L in D as [_ X].
  specialize (X s). rewrite <- E in X. specialize (R []). rewrite app_nil_r in R. rewrite R in X.
  injection X as _ X. symmetry in X. apply app_eq_nil in X. tauto.
Qed.

(** ** Lists *)

Lemma split_at {A} n (l : list A) : l = firstn n l ++ skipn n l.
Proof. symmetry. apply firstn_skipn. Qed.
Lemma enc_req_cons q : enc_req q <> [].
Proof. destruct q; discriminate. Qed.
Lemma enc_resp_cons p : enc_resp p <> [].
Proof. destruct p; discriminate. Qed.

(** ** UTF-8 *)

Lemma utf8_ascii s r : Forall (fun b => b < 128) s -> utf8_ok (s ++ r) = utf8_ok r.
Proof.
  induction 1 as [|b s H _ IH]; [reflexivity|]. cbn [app utf8_ok]. destruct (N.ltb_spec b 128); [exact IH|lia].
Qed.
