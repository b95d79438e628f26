(** * Lemmas about string functions *)
From Coq Require Import ZArith NArith List Bool Lia.
From Verif Require Import ExprModel StrModel StrSpec.
Import ListNotations.
Open Scope Z_scope.

Lemma ulen_pos : forall c, 1 <= ulen c <= 4.
Proof. intros c. unfold ulen. repeat (destruct (_ <? _)%N); lia. Qed.

Lemma blen_nonneg : forall s, 0 <= blen s.
Proof. induction s as [|c s IH]; cbn; [lia|]. pose proof (ulen_pos c). lia. Qed.

Lemma blen_app : forall a b, blen (a ++ b) = blen a + blen b.
Proof. induction a as [|c a IH]; intros b; cbn; [reflexivity|]. rewrite IH. lia. Qed.

Lemma size_nonneg : forall s, 0 <= size s.
Proof. intros s. unfold size. lia. Qed.

Lemma size_cons : forall c s, size (c :: s) = size s + 1.
Proof. intros c s. unfold size. cbn [length]. lia. Qed.

Lemma size_app : forall a b, size (a ++ b) = size a + size b.
Proof. intros a b. unfold size. rewrite app_length. lia. Qed.

Lemma ascii_blen : forall s, ascii s -> blen s = size s.
Proof.
  induction 1 as [|c s H A IH]; [reflexivity|]. cbn [blen]. rewrite size_cons, IH. unfold ulen.
  destruct (c <? 128)%N eqn:E; [lia|]. apply N.ltb_ge in E. lia.
Qed.

Lemma cut_0 : forall s, cut 0 s = Some ([], s).
Proof. destruct s; reflexivity. Qed.

(** Cutting at the end of a prefix. *)
Lemma cut_app : forall a b, cut (blen a) (a ++ b) = Some (a, b).
Proof.
  induction a as [|c a IH]; intros b; [apply cut_0|]. cbn [blen app cut].
  pose proof (ulen_pos c). pose proof (blen_nonneg a).
  destruct (Z.eqb_spec (ulen c + blen a) 0); [lia|].
  destruct (Z.ltb_spec (ulen c + blen a) (ulen c)); [lia|].
  replace (ulen c + blen a - ulen c) with (blen a) by lia. rewrite IH. reflexivity.
Qed.

Lemma cut_ascii : forall s i, ascii s -> 0 <= i <= size s ->
  cut i s = Some (firstn (Z.to_nat i) s, skipn (Z.to_nat i) s).
Proof.
  intros s i A H.
  rewrite <- (firstn_skipn (Z.to_nat i) s) at 1.
  replace i with (blen (firstn (Z.to_nat i) s)) at 1; [apply cut_app|].
  rewrite ascii_blen.
  - unfold size in *. rewrite firstn_length. lia.
  - apply Forall_forall. intros c Hc. unfold ascii in A. rewrite Forall_forall in A. apply A.
    rewrite <- (firstn_skipn (Z.to_nat i) s). apply in_or_app. left. exact Hc.
Qed.

Lemma ascii_skipn : forall n s, ascii s -> ascii (skipn n s).
Proof.
  intros n s A. apply Forall_forall. intros c Hc. unfold ascii in A. rewrite Forall_forall in A. apply A.
  rewrite <- (firstn_skipn n s). apply in_or_app. right. exact Hc.
Qed.

(** [keep] on an interval. *)
Lemma keep_none : forall (P : Z -> bool) s p,
  (forall q, p <= q < p + size s -> P q = false) -> keep P p s = [].
Proof.
  intros P s. induction s as [|c s IH]; intros p H; [reflexivity|]. cbn.
  pose proof (size_nonneg s). rewrite size_cons in H. rewrite H by lia. apply IH. intros q Hq. apply H. lia.
Qed.
Lemma keep_all : forall (P : Z -> bool) s p,
  (forall q, p <= q < p + size s -> P q = true) -> keep P p s = s.
Proof.
  intros P s. induction s as [|c s IH]; intros p H; [reflexivity|]. cbn.
  pose proof (size_nonneg s). rewrite size_cons in H. rewrite H by lia. f_equal. apply IH. intros q Hq. apply H. lia.
Qed.
Lemma keep_app : forall P a b p, keep P p (a ++ b) = keep P p a ++ keep P (p + size a) b.
Proof.
  intros P a. induction a as [|c a IH]; intros b p.
  - cbn. f_equal. unfold size. cbn. lia.
  - cbn [app keep]. rewrite IH, size_cons. replace (p + 1 + size a) with (p + (size a + 1)) by lia.
    destruct (P p); reflexivity.
Qed.
Lemma keep_ext : forall P Q s p, (forall q, p <= q < p + size s -> P q = Q q) -> keep P p s = keep Q p s.
Proof.
  intros P Q s. induction s as [|c s IH]; intros p H; [reflexivity|]. cbn.
  pose proof (size_nonneg s). rewrite size_cons in H. rewrite H by lia.
  rewrite (IH (p + 1)); [reflexivity|]. intros q Hq. apply H. lia.
Qed.

Lemma size_firstn : forall i s, 0 <= i <= size s -> size (firstn (Z.to_nat i) s) = i.
Proof. intros i s H. unfold size in *. rewrite firstn_length. lia. Qed.
Lemma size_skipn : forall i s, 0 <= i <= size s -> size (skipn (Z.to_nat i) s) = size s - i.
Proof. intros i s H. unfold size in *. rewrite skipn_length. lia. Qed.

Lemma keep_from : forall s i, 0 <= i <= size s ->
  keep (fun p => i + 1 <=? p) 1 s = skipn (Z.to_nat i) s.
Proof.
  intros s i H. rewrite <- (firstn_skipn (Z.to_nat i) s) at 1. rewrite keep_app.
  rewrite keep_none, keep_all; [reflexivity| |].
  - intros q Hq. rewrite size_firstn in Hq by lia. apply Z.leb_le. lia.
  - intros q Hq. rewrite size_firstn in Hq by lia. apply Z.leb_gt. lia.
Qed.

Lemma keep_upto : forall s i, 0 <= i <= size s ->
  keep (fun p => p <? i + 1) 1 s = firstn (Z.to_nat i) s.
Proof.
  intros s i H. rewrite <- (firstn_skipn (Z.to_nat i) s) at 1. rewrite keep_app.
  rewrite keep_all, keep_none; [apply app_nil_r| |].
  - intros q Hq. rewrite size_firstn in Hq by lia. apply Z.ltb_ge. lia.
  - intros q Hq. rewrite size_firstn in Hq by lia. apply Z.ltb_lt. lia.
Qed.

Lemma keep_between : forall s i j, 0 <= i <= j -> j <= size s ->
  keep (fun p => (i + 1 <=? p) && (p <? j + 1)) 1 s =
  firstn (Z.to_nat (j - i)) (skipn (Z.to_nat i) s).
Proof.
  intros s i j H Hj. rewrite <- (firstn_skipn (Z.to_nat i) s) at 1. rewrite keep_app.
  rewrite keep_none.
  2: { intros q Hq. rewrite size_firstn in Hq by lia. apply andb_false_intro1, Z.leb_gt. lia. }
  cbn [app]. rewrite size_firstn by lia.
  set (r := skipn (Z.to_nat i) s). assert (Hr : size r = size s - i) by (apply size_skipn; lia).
  rewrite <- (firstn_skipn (Z.to_nat (j - i)) r) at 1. rewrite keep_app.
  rewrite keep_all, keep_none; [apply app_nil_r| |].
  - intros q Hq. rewrite size_firstn in Hq by lia. apply andb_false_intro2, Z.ltb_ge. lia.
  - intros q Hq. rewrite size_firstn in Hq by lia. apply andb_true_iff. split; [apply Z.leb_le|apply Z.ltb_lt]; lia.
Qed.

(** Trimming. *)
Lemma trim_start_ok : forall p s, exists a, s = a ++ trim_start p s /\ Forall (fun c => p c = true) a /\
  forall c r, trim_start p s = c :: r -> p c = false.
Proof.
  intros p s. induction s as [|c s (a & E & F & N)]; cbn.
  - exists []. repeat split; auto. discriminate.
  - destruct (p c) eqn:Hc.
    + exists (c :: a). split; [cbn; congruence|]. split; [constructor; assumption|exact N].
    + exists []. split; [reflexivity|]. split; [constructor|]. intros c' r' H. injection H as <- <-. exact Hc.
Qed.

Lemma trim_end_ok : forall p s, exists b, s = trim_end p s ++ b /\ Forall (fun c => p c = true) b /\
  forall c r, trim_end p s = r ++ [c] -> p c = false.
Proof.
  intros p s. destruct (trim_start_ok p (rev s)) as (a & E & F & N). exists (rev a).
  split; [|split].
  - unfold trim_end. rewrite <- rev_app_distr, <- E, rev_involutive. reflexivity.
  - apply Forall_rev. exact F.
  - intros c r H. unfold trim_end in H. apply (N c (rev r)).
    rewrite <- (rev_involutive (trim_start p (rev s))), H, rev_app_distr. reflexivity.
Qed.

Lemma memb : forall cs c, existsb (N.eqb c) cs = true <-> In c cs.
Proof.
  intros cs c. rewrite existsb_exists. split.
  - intros (x & H & E). apply N.eqb_eq in E. congruence.
  - intros H. exists c. split; [exact H|apply N.eqb_refl].
Qed.

Lemma memb_F : forall cs a,
  Forall (fun c => existsb (N.eqb c) cs = true) a -> Forall (fun c => In c cs) a.
Proof. intros cs a H. eapply Forall_impl; [|exact H]. intros c. apply memb. Qed.

Lemma not_memb : forall cs c, existsb (N.eqb c) cs = false -> ~ In c cs.
Proof. intros cs c H I. apply memb in I. congruence. Qed.

(** Searching. *)
Lemma starts_iff : forall t s, starts t s = true <-> exists b, s = t ++ b.
Proof.
  induction t as [|a t IH]; intros s; cbn.
  - split; [exists s; reflexivity|reflexivity].
  - destruct s as [|c s].
    + split; [discriminate|]. intros (b & H). discriminate.
    + rewrite andb_true_iff, IH, N.eqb_eq. split.
      * intros (-> & b & ->). exists b. reflexivity.
      * intros (b & H). injection H as -> ->. split; [reflexivity|exists b; reflexivity].
Qed.

Lemma find_some : forall t s off p, find t s off = Some p ->
  exists a b, s = a ++ t ++ b /\ p = off + blen a /\
    forall a' b', s = a' ++ t ++ b' -> (length a <= length a')%nat.
Proof.
  intros t s. induction s as [|c s IH]; intros off p; cbn.
  - destruct (starts t []) eqn:E; [|discriminate]. intros H. injection H as <-.
    apply starts_iff in E as (b & E). exists [], b. split; [exact E|]. split; [cbn; lia|]. intros. cbn. lia.
  - destruct (starts t (c :: s)) eqn:E.
    + intros H. injection H as <-. apply starts_iff in E as (b & E). exists [], b.
      split; [exact E|]. split; [cbn; lia|]. intros. cbn. lia.
    + intros H. apply IH in H as (a & b & -> & -> & M). exists (c :: a), b.
      split; [reflexivity|]. split; [cbn; lia|]. intros a' b' H. destruct a' as [|x a'].
      * exfalso. cbn in H. rewrite (proj2 (starts_iff t (c :: a ++ t ++ b))) in E; [discriminate|].
        exists b'. exact H.
      * injection H as -> H. apply M in H. cbn. lia.
Qed.

Lemma find_none : forall t s off, find t s off = None -> forall a b, s <> a ++ t ++ b.
Proof.
  intros t s. induction s as [|c s IH]; intros off; cbn.
  - destruct (starts t []) eqn:E; [discriminate|]. intros _ a b H.
    assert (E2 : starts t [] = true); [|congruence]. apply starts_iff. symmetry in H.
    apply app_eq_nil in H as [_ H]. exists b. symmetry. exact H.
  - destruct (starts t (c :: s)) eqn:E; [discriminate|]. intros H a b Hs. destruct a as [|x a].
    + rewrite (proj2 (starts_iff t (c :: s))) in E; [discriminate|]. exists b. exact Hs.
    + injection Hs as -> Hs. exact (IH _ H a b Hs).
Qed.
