(** * LIKE: C55 *)
From stdpp Require Import tactics.
From Coq Require Import NArith List Bool Lia ZifyBool ZifyN.
From Verif Require Import LikeModel LikeSpec.
Import ListNotations.
Local Open Scope N_scope.

Lemma char_eq_same cs a b : char_eq cs a b = true <-> same_letter cs b a.
Proof. unfold char_eq, lower, same_letter. destruct cs; [lia|]. destruct (65 <=? a) eqn:?, (a <=? 90) eqn:?, (65 <=? b) eqn:?, (b <=? 90) eqn:?; cbn; lia. Qed.

(** The loop over the offsets. *)
Definition try (f : str -> mres) : str -> mres :=
  fix try (v : str) : mres :=
    match f v with
    | MTrue => MTrue
    | MPanic => MPanic
    | MFalse => match v with [] => MFalse | x :: v' => if 1 <? utf8_len x then MPanic else try v' end
    end.

Lemma matches_cons cs esc escaping c p v :
  matches cs esc escaping (c :: p) v =
  if negb escaping && is_esc esc c then matches cs esc true p v
  else if negb escaping && (c =? percent) then
    match p with [] => MTrue | _ => try (matches cs esc false p) v end
  else if negb escaping && (c =? underscore) then
    match v with [] => MFalse | _ :: v' => matches cs esc false p v' end
  else match v with [] => MFalse | x :: v' => if char_eq cs x c then matches cs esc false p v' else MFalse end.
Proof. reflexivity. Qed.

Definition toks (esc : option N) (escaping : bool) (p : str) : list tok :=
  if escaping then match p with d :: p' => Lit d :: tokens esc p' | [] => [] end else tokens esc p.

Definition right_for (cs : bool) (ts : list tok) (v : str) (r : mres) : Prop :=
  match r with
  | MTrue => likes cs ts v
  | MFalse => ~ likes cs ts v
  | MPanic => Exists (fun c => ~ is_ascii c) v
  end.

Lemma any_all cs v : likes cs [AnySeq] v.
Proof. rewrite <- (app_nil_r v). repeat constructor. Qed.

Lemma try_ok cs ts f : (forall v, right_for cs ts v (f v)) -> forall v, right_for cs (AnySeq :: ts) v (try f v).
Proof.
  intros Hf. induction v as [|x v IH]; cbn [try].
  - specialize (Hf []). destruct (f []) eqn:E; cbn [right_for] in *.
    + change (@nil N) with (@nil N ++ []). by constructor.
    + intros Hl. inversion Hl as [| | |w ts' v' Hl' E1 E2]; subst. destruct w; [|discriminate]. cbn in *. subst. contradiction.
    + exact Hf.
  - specialize (Hf (x :: v)). destruct (f (x :: v)) eqn:E; cbn [right_for] in *.
    + change (x :: v) with ([] ++ x :: v). by constructor.
    + destruct (1 <? utf8_len x) eqn:U.
      * constructor. unfold is_ascii, utf8_len in *. destruct (x <? 128) eqn:?; lia.
      * destruct (try f v) eqn:Et; cbn [right_for] in *.
        -- inversion IH; subst. change (x :: w ++ v0) with ((x :: w) ++ v0). by constructor.
        -- intros Hl. inversion Hl as [| | |w ts' v' Hl' E1 E2]; subst. destruct w as [|y w]; cbn in *; [subst; contradiction|].
           match goal with H : _ :: _ = _ :: _ |- _ => injection H as -> <- end. apply IH. by constructor.
        -- by constructor.
    + exact Hf.
Qed.

Lemma matches_ok cs esc : forall p escaping v, right_for cs (toks esc escaping p) v (matches cs esc escaping p v).
Proof.
  induction p as [|c p IH]; intros escaping v.
  - destruct v; cbn; [destruct escaping; constructor|]. destruct escaping; inversion 1.
  - rewrite matches_cons. destruct (negb escaping && is_esc esc c) eqn:Ee.
    { destruct escaping; [discriminate|]. specialize (IH true v). cbn in Ee. unfold toks. cbn [tokens]. unfold is_esc in Ee.
      rewrite Ee. exact IH. }
    assert (Ht : toks esc escaping (c :: p) =
                 (if escaping then Lit c else if c =? 37 then AnySeq else if c =? 95 then AnyOne else Lit c) :: tokens esc p).
    { destruct escaping; [done|]. cbn in Ee. unfold toks. cbn [tokens]. unfold is_esc in Ee. by rewrite Ee. }
    rewrite Ht. clear Ht Ee.
    assert (Hlit : right_for cs (Lit c :: tokens esc p) v
              match v with [] => MFalse | x :: v' => if char_eq cs x c then matches cs esc false p v' else MFalse end).
    { destruct v as [|x v]; [cbn; inversion 1|]. destruct (char_eq cs x c) eqn:Ec.
      - specialize (IH false v). cbn [toks] in IH. destruct (matches cs esc false p v); cbn [right_for] in *.
        + constructor; [by apply char_eq_same|done].
        + intros Hl. inversion Hl; subst. contradiction.
        + by constructor.
      - cbn. intros Hl. inversion Hl as [|c' d' ts' v' Hs| |]; subst. apply char_eq_same in Hs. congruence. }
    destruct escaping; cbn [negb andb]; [exact Hlit|]. unfold percent, underscore. destruct (c =? 37).
    + destruct p as [|d p]; [cbn; apply any_all|]. apply try_ok. intros w. apply (IH false w).
    + destruct (c =? 95); [|exact Hlit]. destruct v as [|x v]; [cbn; inversion 1|].
      specialize (IH false v). cbn [toks] in IH. destruct (matches cs esc false p v); cbn [right_for] in *.
      * by constructor.
      * intros Hl. inversion Hl; subst. contradiction.
      * by constructor.
Qed.

(** C55, partial: for values of ASCII characters (and any pattern and escape character), LIKE is
    TRUE exactly when the value matches, and NOT LIKE exactly when it does not.  Missing: values
    with other characters, and NULL operands; see the refutations. *)
Theorem c55_like_partial : forall cs negated esc v p,
  Forall is_ascii v ->
  exists b, like_eval cs negated esc (Some v) (Some p) = Some b /\
    (b = true <-> if negated then ~ likes cs (tokens esc p) v else likes cs (tokens esc p) v).
Proof.
  intros cs negated esc v p Ha. unfold like_eval. cbn [show]. pose proof (matches_ok cs esc p false v) as H. cbn [toks] in H.
  destruct (matches cs esc false p v); cbn [right_for] in H.
  - exists (negb negated). split; [done|]. destruct negated; cbn; split; intros; done || tauto.
  - exists negated. split; [done|]. destruct negated; cbn; split; intros; done || tauto.
  - exfalso. apply Exists_exists in H as (c & Hin & Hc). rewrite Forall_forall in Ha. apply Hc, Ha, Hin.
Qed.
Print Assumptions c55_like_partial.

(** With any characters an answer, if there is one, is right. *)
Theorem c55_answer_right_partial : forall cs negated esc v p b,
  like_eval cs negated esc (Some v) (Some p) = Some b ->
  (b = true <-> if negated then ~ likes cs (tokens esc p) v else likes cs (tokens esc p) v).
Proof.
  intros cs negated esc v p b. unfold like_eval. cbn [show]. pose proof (matches_ok cs esc p false v) as H. cbn [toks] in H.
  destruct (matches cs esc false p v); cbn [right_for] in H; intros [= <-]; destruct negated; cbn; split; intros; done || tauto.
Qed.
Print Assumptions c55_answer_right_partial.

(** "a_b%" with escape "\" absent, and "10\%" against "10%". *)
Example c55_ex :
  like_eval false false None (Some [65; 120; 66; 99; 100]) (Some [97; 95; 98; 37]) = Some true /\
  like_eval false true (Some 92) (Some [49; 48; 37]) (Some [49; 48; 92; 37]) = Some false /\
  like_eval false false (Some 92) (Some [49; 48; 48]) (Some [49; 48; 92; 37]) = Some false /\
  Forall is_ascii [65; 120; 66; 99; 100].
Proof. repeat split; repeat constructor. Qed.

(** A character of two bytes in the value: 'éa' LIKE '%a' has no answer (the program panics),
    though the value matches. *)
Theorem c55_non_ascii_refuted : exists v p,
  likes false (tokens None p) v /\ like_eval false false None (Some v) (Some p) = None.
Proof.
  exists [233; 97], [37; 97]. split; [|reflexivity]. cbn. change [233; 97] with ([233] ++ [97]).
  constructor. constructor; [by left|constructor].
Qed.
Print Assumptions c55_non_ascii_refuted.

(** NULL LIKE 'n%' is TRUE instead of UNKNOWN, and NULL LIKE NULL too. *)
Theorem c55_null_refuted :
  like_eval false false None None (Some [110; 37]) = Some true /\ like_eval false false None None None = Some true /\
  like_eval false true None None (Some [97; 37]) = Some true.
Proof. done. Qed.
Print Assumptions c55_null_refuted.
