(** * Proofs about date and time literals *)
From Coq Require Import ZArith NArith Lia.
From stdpp Require Import list.
From Verif Require Import CastSpec CastModel DlSpec DlModel.
Local Open Scope Z_scope.

Lemma rel_holds op a b : rel op a b = true <-> holds op a b.
Proof.
  destruct op; cbn [rel holds].
  - apply Z.eqb_eq.
  - rewrite negb_true_iff. apply Z.eqb_neq.
  - apply Z.ltb_lt.
  - apply Z.leb_le.
  - rewrite Z.ltb_lt. lia.
  - rewrite Z.leb_le. lia.
Qed.
Lemma as_u64_id z : 0 <= z < 2 ^ 63 -> as_u64 z = z.
Proof. intro H. unfold as_u64. apply Z.mod_small. lia. Qed.
Lemma as_u64_neg z : - 2 ^ 63 <= z < 0 -> as_u64 z = z + 2 ^ 64.
Proof. intro H. unfold as_u64. symmetry. apply (Z.mod_unique_pos z (2 ^ 64) (-1)); lia. Qed.

Section P.
Context (cal : calendar).
Context (show_dec : Z -> nat -> list N) (read_dec read_float : list N -> option (Z * nat)) (to_f32 : Z -> nat -> Z * nat).
Context (other : cop -> val -> val -> bool).
Notation cast := (cast_to show_dec read_dec read_float to_f32 (chrono cal)).
Notation insert_value := (insert_value cal show_dec read_dec read_float to_f32).
Notation compare := (compare cal show_dec read_dec read_float to_f32 other).

Lemma cast_moment t s z : temporal t -> parse t s = None -> says cal t s = Some z -> (t = TTs -> 0 <= z < 2 ^ 63) ->
  cast (VVar s) t = moment t z.
Proof.
  intros Ht Hp Hs Hz. destruct Ht as [-> | [-> | ->]]; unfold cast_to; cbn [type_of says moment] in *; (destruct (decide _) as [E|_]; [discriminate E|]);
    cbn [cast_text]; rewrite Hp; cbn [chrono]; rewrite Hs; cbn [fmap option_fmap option_map mk_whole]; try easy.
  rewrite as_u64_id by auto. easy.
Qed.
Lemma insert_text t s z : temporal t -> parse t s = None -> says cal t s = Some z -> (t = TTs -> 0 <= z < 2 ^ 63) ->
  insert_value t (Plain s) = moment t z.
Proof.
  intros Ht Hp Hs Hz. unfold DlModel.insert_value. cbn [lit_value type_of].
  destruct (decide (TVar = t)) as [<-|_]; [destruct Ht as [H | [H | H]]; discriminate|]. apply cast_moment; easy.
Qed.
Lemma compare_text t s z a v op : temporal t -> parse t s = None -> says cal t s = Some z -> (t = TTs -> 0 <= z < 2 ^ 63) ->
  moment t a = Some v -> answers (compare t v op (Plain s)) (holds op a z).
Proof.
  intros Ht Hp Hs Hz Hv. unfold DlModel.compare, plan_right. cbn [lit_type].
  rewrite (cast_moment t s z Ht Hp Hs Hz).
  destruct Ht as [-> | [-> | ->]]; cbn [moment] in Hv; injection Hv as <-;
    exists (rel op a z); (split; [reflexivity | apply rel_holds]).
Qed.
Lemma ts_typed s z : parse TTs s = None -> instant_of cal s = Some z -> 0 <= z < 2 ^ 63 ->
  insert_value TTs (Typed TTs s) = Some (VTs z) /\
  forall a op, answers (compare TTs (VTs a) op (Typed TTs s)) (holds op a z).
Proof.
  intros Hp Hi Hz.
  assert (Hl : lit_value cal show_dec read_dec read_float to_f32 (Typed TTs s) = Some (VTs z)).
  { cbn [lit_value]. rewrite Hp, Hi. cbn [fmap option_fmap option_map]. rewrite as_u64_id by easy. easy. }
  split; [unfold DlModel.insert_value; rewrite Hl; cbn; destruct (decide _) as [_|E]; [easy | destruct E; easy]|].
  intros a op. unfold DlModel.compare, plan_right. cbn [lit_type]. rewrite bool_decide_true by easy. cbn [orb]. rewrite Hl.
  unfold perform. cbn [null type_of orb]. destruct (decide _) as [_|E]; [|destruct E; easy].
  exists (rel op a z). split; [easy | apply rel_holds].
Qed.
Lemma date_ts s d : day_of cal s = Some d -> 
  insert_value TTs (Typed TDate s) = Some (VTs (as_u64 (86400 * d))) /\
  forall a op, answers (compare TTs (VTs a) op (Typed TDate s)) (holds op a (as_u64 (86400 * d))).
Proof.
  intros Hd.
  assert (Hl : lit_value cal show_dec read_dec read_float to_f32 (Typed TDate s) = Some (VTs (as_u64 (86400 * d)))).
  { cbn [lit_value]. rewrite Hd. easy. }
  split; [unfold DlModel.insert_value; rewrite Hl; cbn [type_of]; destruct (decide _) as [_|E]; [easy | destruct E; easy]|].
  intros a op. unfold DlModel.compare, plan_right. cbn [lit_type is_day]. rewrite bool_decide_false by easy. cbn [is_num is_text andb orb].
  rewrite Hl. unfold perform. cbn [null type_of orb]. destruct (decide _) as [_|E]; [|destruct E; easy].
  eexists. split; [reflexivity | apply rel_holds].
Qed.
Lemma typed_insert t s : t = TDate \/ t = TTime -> insert_value t (Typed t s) = None.
Proof.
  intros [-> | ->]; unfold DlModel.insert_value; cbn [lit_value].
  - destruct (day_of cal s); easy.
  - destruct (second_of cal s); easy.
Qed.
Lemma typed_compare t u s v op : t = TDate \/ t = TTime -> temporal u -> type_of v = t -> null v = false -> compare t v op (Typed u s) = None.
Proof.
  intros Ht Hu Hv Hn. unfold DlModel.compare, plan_right.
  assert (Hperf : forall w, type_of w = TTs -> perform cal show_dec read_dec read_float to_f32 other op v w = None \/ null w = true).
  { intros w Hw. destruct w; try discriminate; [right; easy|]. left. unfold perform. rewrite Hn. cbn [null orb type_of].
    destruct Ht as [-> | ->]; destruct v; try discriminate; try (cbn in Hn; discriminate); easy. }
  assert (Hl : forall w, lit_value cal show_dec read_dec read_float to_f32 (Typed u s) = Some w -> type_of w = TTs /\ null w = false).
  { intros w Hw. destruct Hu as [-> | [-> | ->]]; cbn [lit_value] in Hw.
    - destruct (day_of cal s); [|discriminate]. cbn in Hw. injection Hw as <-. easy.
    - destruct (second_of cal s); [|discriminate]. cbn in Hw. injection Hw as <-. easy.
    - destruct (parse TTs s); [injection Hw as <-; easy|]. destruct (instant_of cal s); [|discriminate]. cbn in Hw. injection Hw as <-. easy. }
  destruct (_ || _); [|easy]. destruct (lit_value _ _ _ _ _ _) as [w|] eqn:E; [|easy].
  destruct (Hl w eq_refl) as [Hw Hwn]. destruct (Hperf w Hw) as [H | H]; [exact H | congruence].
Qed.
End P.
