(** C132: CONVERT gives the value in the type asked for, and TRY_CONVERT gives
    NULL where that cannot be. *)

From Coq Require Import ZArith NArith List Bool Lia.
From Verif Require Import CastSpec CastModel CastProps ConvSpec ConvModel.
Import ListNotations.
Open Scope Z_scope.

Lemma target_known ty t : column_of ty = Some t -> target (Some ty) = Some (Some t).
Proof. destruct ty; cbn; congruence. Qed.

(** A type it does not know is refused before anything runs, and no other is. *)
Theorem c132_planned :
  forall sd rd rf f32 ch low c v,
    convert sd rd rf f32 ch low c v = Not_planned <->
    exists ty, to_type c = Some ty /\ column_of ty = None.
Proof.
  intros sd rd rf f32 ch low c v. unfold convert. split.
  - destruct (to_type c) as [ty |].
    + intros H. exists ty. split; [reflexivity |].
      destruct (column_of ty) as [t |] eqn:E; [| reflexivity].
      rewrite (target_known _ _ E) in H.
      destruct (evaluate _ _ _ _ _ _ _ _ _ _); discriminate.
    + cbn [target]. destruct (evaluate _ _ _ _ _ _ _ _ _ _); discriminate.
  - intros [ty [-> Hc]]. destruct ty; try discriminate. reflexivity.
Qed.

Example c132_planned_ex sd rd rf f32 ch low :
  convert sd rd rf f32 ch low {| try_ := true; to_type := Some (Another 3); charset := None |} (VInt 5)
  = Not_planned.
Proof. reflexivity. Qed.

(** An integer converted to a type of integers is the same number in that type
    if it fits; if it does not, CONVERT fails and TRY_CONVERT gives NULL. *)
Theorem c132_integers :
  forall sd rd rf f32 ch low tr ty t v z,
    column_of ty = Some t -> integer_type t ->
    sane v -> integer_type (type_of v) -> whole v = Some z ->
    let r := convert sd rd rf f32 ch low {| try_ := tr; to_type := Some ty; charset := None |} v in
    (fits t z -> exists w, r = Gives w t /\ type_of w = t /\ whole w = Some z) /\
    (~ fits t z -> r = if tr then Gives (VNull t) t else Fails).
Proof.
  intros sd rd rf f32 ch low tr ty t v z Hc It Sv Iv W r.
  destruct (cast_integers sd rd rf f32 ch v t z Sv Iv It W) as [Hy Hn].
  subst r. unfold convert. cbn [to_type charset try_]. rewrite (target_known _ _ Hc).
  unfold evaluate. split.
  - intros F. destruct (Hy F) as [w [E [T Wz]]]. rewrite E. exists w.
    split; [reflexivity | split; assumption].
  - intros F. rewrite (Hn F). destruct tr; reflexivity.
Qed.

Example c132_integers_ex sd rd rf f32 ch low :
  convert sd rd rf f32 ch low {| try_ := false; to_type := Some BigInt; charset := None |} (VInt 5)
    = Gives (VBig 5) TBig /\
  convert sd rd rf f32 ch low {| try_ := true; to_type := Some Int; charset := None |} (VBig (2 ^ 40))
    = Gives (VNull TInt) TInt /\
  convert sd rd rf f32 ch low {| try_ := false; to_type := Some Int; charset := None |} (VBig (2 ^ 40))
    = Fails.
Proof. repeat split; vm_compute; reflexivity. Qed.

(** With a type and no character set, what comes out is of the type named and so
    is its column. *)
Theorem c132_typed :
  forall sd rd rf f32 ch low tr ty t v w col,
    (forall y s z, ch y s = Some z -> fits y z) ->
    sane v -> column_of ty = Some t ->
    convert sd rd rf f32 ch low {| try_ := tr; to_type := Some ty; charset := None |} v = Gives w col ->
    col = t /\ type_of w = t /\ sane w.
Proof.
  intros sd rd rf f32 ch low tr ty t v w col Hch Sv Hc.
  unfold convert. cbn [to_type charset try_]. rewrite (target_known _ _ Hc).
  unfold evaluate, return_type.
  destruct (cast_to sd rd rf f32 ch v t) as [u |] eqn:E.
  - intros H. assert (u = w) by congruence. assert (t = col) by congruence. subst u col.
    split; [reflexivity |]. eapply cast_typed; eassumption.
  - destruct tr; [| discriminate].
    intros H. assert (Hw : VNull t = w) by congruence. assert (t = col) by congruence.
    subst w col. split; [reflexivity |]. split; [reflexivity |].
    intros z Hz. discriminate Hz.
Qed.

Example c132_typed_ex sd rd rf f32 ch low :
  convert sd rd rf f32 ch low {| try_ := false; to_type := Some Varchar; charset := None |} (VInt 42)
  = Gives (VVar [52; 50]%N) TVar.
Proof. vm_compute. reflexivity. Qed.

(** TRY_CONVERT to a type differs from CONVERT only where that fails: there it
    gives the NULL of the type.  So it never fails. *)
Theorem c132_try :
  forall sd rd rf f32 ch low ty t v,
    column_of ty = Some t ->
    let plain := convert sd rd rf f32 ch low {| try_ := false; to_type := Some ty; charset := None |} v in
    let tried := convert sd rd rf f32 ch low {| try_ := true; to_type := Some ty; charset := None |} v in
    (plain = Fails -> tried = Gives (VNull t) t) /\
    (plain <> Fails -> tried = plain) /\
    tried <> Fails.
Proof.
  intros sd rd rf f32 ch low ty t v Hc plain tried. subst plain tried.
  unfold convert. cbn [to_type charset try_]. rewrite (target_known _ _ Hc).
  unfold evaluate. destruct (cast_to sd rd rf f32 ch v t) as [w |].
  - split; [discriminate |]. split; [reflexivity | discriminate].
  - split; [reflexivity |]. split; [| discriminate].
    intros H. contradiction H. reflexivity.
Qed.

Example c132_try_ex sd rd rf f32 ch low :
  convert sd rd rf f32 ch low {| try_ := false; to_type := Some Int; charset := None |} (VVar [120]%N) = Fails /\
  convert sd rd rf f32 ch low {| try_ := true; to_type := Some Int; charset := None |} (VVar [120]%N)
  = Gives (VNull TInt) TInt.
Proof. split; vm_compute; reflexivity. Qed.

(** The NULL of any type becomes the NULL of the type named. *)
Theorem c132_null :
  forall sd rd rf f32 ch low tr ty t s,
    column_of ty = Some t ->
    convert sd rd rf f32 ch low {| try_ := tr; to_type := Some ty; charset := None |} (VNull s)
    = Gives (VNull t) t.
Proof.
  intros sd rd rf f32 ch low tr ty t s Hc.
  unfold convert. cbn [to_type charset try_]. rewrite (target_known _ _ Hc).
  unfold evaluate.
  destruct (cast_null_own sd rd rf f32 ch (VNull t) s) as [E _]. cbn [type_of] in E.
  rewrite E. reflexivity.
Qed.

Example c132_null_ex sd rd rf f32 ch low :
  convert sd rd rf f32 ch low {| try_ := false; to_type := Some Boolean; charset := None |} (VNull TVar)
  = Gives (VNull TBool) TBool.
Proof. reflexivity. Qed.

(** Refuted: with a character set the type is forgotten.  Whatever the value, it
    comes out as it went in, under a column of another type. *)
Theorem c132_charset_refuted :
  forall sd rd rf f32 ch low tr ty t v name,
    column_of ty = Some t ->
    low name = utf8 \/ low name = utf8mb4 ->
    type_of v <> t ->
    exists w col,
      convert sd rd rf f32 ch low {| try_ := tr; to_type := Some ty; charset := Some name |} v
      = Gives w col /\ w = v /\ col = t /\ type_of w <> col.
Proof.
  intros sd rd rf f32 ch low tr ty t v name Hc Hn Hv. exists v, t.
  split; [| split; [reflexivity | split; [reflexivity | exact Hv]]].
  unfold convert. cbn [to_type charset try_]. rewrite (target_known _ _ Hc).
  unfold evaluate, return_type. destruct Hn as [-> | ->]; reflexivity.
Qed.

(** Refuted: so it is with a character set alone, where the column is of texts. *)
Theorem c132_using_refuted :
  forall sd rd rf f32 ch low tr v name,
    low name = utf8 \/ low name = utf8mb4 ->
    type_of v <> TVar ->
    exists w col,
      convert sd rd rf f32 ch low {| try_ := tr; to_type := None; charset := Some name |} v
      = Gives w col /\ w = v /\ col = TVar /\ type_of w <> col.
Proof.
  intros sd rd rf f32 ch low tr v name Hn Hv. exists v, TVar.
  split; [| split; [reflexivity | split; [reflexivity | exact Hv]]].
  unfold convert, evaluate, return_type. cbn [to_type charset try_ target].
  destruct Hn as [-> | ->]; reflexivity.
Qed.

(** Refuted: TRY_CONVERT fails for a character set it does not know. *)
Theorem c132_try_charset_refuted :
  forall sd rd rf f32 ch low to v name,
    low name <> utf8 -> low name <> utf8mb4 ->
    (forall ty, to = Some ty -> column_of ty <> None) ->
    convert sd rd rf f32 ch low {| try_ := true; to_type := to; charset := Some name |} v = Fails.
Proof.
  intros sd rd rf f32 ch low to v name H1 H2 Hto.
  assert (Ht : exists t, target to = Some t).
  { destruct to as [ty |]; [| exists None; reflexivity].
    destruct (column_of ty) as [t |] eqn:E; [| contradiction (Hto ty eq_refl E)].
    exists (Some t). apply target_known. exact E. }
  destruct Ht as [t Ht]. unfold convert. cbn [to_type charset try_]. rewrite Ht.
  unfold evaluate, same.
  destruct (list_eq_dec N.eq_dec (low name) utf8); [contradiction |].
  destruct (list_eq_dec N.eq_dec (low name) utf8mb4); [contradiction |]. reflexivity.
Qed.

Example c132_charset_ex sd rd rf f32 ch :
  convert sd rd rf f32 ch (fun s => s) {| try_ := false; to_type := Some Char; charset := Some utf8 |} (VInt 5)
    = Gives (VInt 5) TChar /\
  convert sd rd rf f32 ch (fun s => s) {| try_ := false; to_type := None; charset := Some utf8mb4 |} (VInt 5)
    = Gives (VInt 5) TVar /\
  convert sd rd rf f32 ch (fun s => s) {| try_ := true; to_type := None; charset := Some [97]%N |} (VInt 5)
    = Fails.
Proof. repeat split. Qed.

Print Assumptions c132_planned.
Print Assumptions c132_integers.
Print Assumptions c132_typed.
Print Assumptions c132_try.
Print Assumptions c132_null.
Print Assumptions c132_charset_refuted.
Print Assumptions c132_using_refuted.
Print Assumptions c132_try_charset_refuted.
