(** * C118: a date or time written in a statement is that date or time *)
From Coq Require Import ZArith NArith Lia.
From stdpp Require Import list.
From Verif Require Import CastSpec CastModel CastProofs DlSpec DlModel DlProofs.
Local Open Scope Z_scope.

(** Full property: for every DATE, TIME or TIMESTAMP column of type [t] and every literal [l], plain or of type [t], whose text says
    number [z]: INSERT stores [moment t z], and comparing a value that is number [a] with the literal answers [holds op a z]. *)
Section Props.
Context (cal : calendar).
Context (show_dec : Z -> nat -> list N) (read_dec read_float : list N -> option (Z * nat)) (to_f32 : Z -> nat -> Z * nat).
Context (other : cop -> val -> val -> bool).
Notation insert_value := (insert_value cal show_dec read_dec read_float to_f32).
Notation compare := (compare cal show_dec read_dec read_float to_f32 other).

(** Proved for plain texts that are not whole numbers; instants are from 1970 on. *)
Theorem c118_plain_partial (t : cty) (s : list N) (z : Z) :
  temporal t -> parse t s = None -> says cal t s = Some z -> (t = TTs -> 0 <= z < 2 ^ 63) ->
  insert_value t (Plain s) = moment t z /\
  forall a v op, moment t a = Some v -> answers (compare t v op (Plain s)) (holds op a z).
Proof.
  intros Ht Hp Hs Hz. split; [apply insert_text; easy|]. intros a v op Hv. eapply compare_text; eassumption.
Qed.

(** Proved for TIMESTAMP literals and TIMESTAMP columns. *)
Theorem c118_timestamp_partial (s : list N) (z : Z) :
  parse TTs s = None -> instant_of cal s = Some z -> 0 <= z < 2 ^ 63 ->
  insert_value TTs (Typed TTs s) = Some (VTs z) /\
  forall a op, answers (compare TTs (VTs a) op (Typed TTs s)) (holds op a z).
Proof. exact (ts_typed cal show_dec read_dec read_float to_f32 other s z). Qed.

(** A DATE literal from 1970 on means its midnight in a TIMESTAMP column. *)
Theorem c118_midnight_partial (s : list N) (d : Z) :
  day_of cal s = Some d -> 0 <= d < 2 ^ 31 ->
  insert_value TTs (Typed TDate s) = Some (VTs (seconds_per_day * d)) /\
  forall a op, answers (compare TTs (VTs a) op (Typed TDate s)) (holds op a (seconds_per_day * d)).
Proof.
  intros Hd Hr. pose proof (date_ts cal show_dec read_dec read_float to_f32 other s d Hd) as H.
  rewrite (as_u64_id (86400 * d)) in H by lia. exact H.
Qed.

(** Refuted: no DATE or TIME literal can be inserted into a DATE or TIME column. *)
Theorem c118_insert_refuted (t : cty) (s : list N) : t = TDate \/ t = TTime -> insert_value t (Typed t s) = None.
Proof. exact (typed_insert cal show_dec read_dec read_float to_f32 t s). Qed.

(** Refuted: comparing a DATE or TIME column, where it is not NULL, with a DATE, TIME or TIMESTAMP literal is always an error. *)
Theorem c118_compare_refuted (t u : cty) (s : list N) (a : Z) (v : val) (op : cop) :
  t = TDate \/ t = TTime -> temporal u -> moment t a = Some v -> compare t v op (Typed u s) = None.
Proof.
  intros Ht Hu Hv. apply typed_compare; try easy; destruct Ht as [-> | ->]; cbn in Hv; injection Hv as <-; easy.
Qed.

(** Refuted: a date before 1970 as a TIMESTAMP is later than every timestamp up to the year 292 billion. *)
Theorem c118_before_1970_refuted (s : list N) (d : Z) :
  day_of cal s = Some d -> - 2 ^ 31 <= d < 0 ->
  insert_value TTs (Typed TDate s) = Some (VTs (seconds_per_day * d + 2 ^ 64)) /\
  forall a, 0 <= a < 2 ^ 63 -> compare TTs (VTs a) Lt (Typed TDate s) = Some (Some true).
Proof.
  intros Hd Hr. destruct (date_ts cal show_dec read_dec read_float to_f32 other s d Hd) as [Hi Hc].
  rewrite (as_u64_neg (86400 * d)) in Hi, Hc by lia. split; [exact Hi|]. intros a Ha.
  destruct (Hc a Lt) as (b & Hb & Hiff). rewrite Hb. destruct b; [easy|]. exfalso. enough (false = true) by easy.
  apply Hiff. cbn. lia.
Qed.

(** Refuted: a TIME literal goes into a TIMESTAMP column as a moment of 1970-01-01. *)
Theorem c118_time_refuted (s : list N) (z : Z) : second_of cal s = Some z -> insert_value TTs (Typed TTime s) = Some (VTs z).
Proof. intro H. unfold DlModel.insert_value. cbn [lit_value]. rewrite H. easy. Qed.

(** Refuted: a text of digits is not read as a date (20240131) or time (120000), but as a number of days or seconds. *)
Theorem c118_digits_refuted (t : cty) (z : Z) : temporal t -> fits t z -> insert_value t (Plain (show z)) = moment t z.
Proof.
  intros Ht Hf. pose proof (parse_show t z Hf) as Hp. unfold DlModel.insert_value. cbn [lit_value type_of].
  destruct Ht as [-> | [-> | ->]]; unfold cast_to; cbn [type_of]; repeat (destruct (decide _) as [E|_]; [discriminate E|]);
    cbn [cast_text]; rewrite Hp; easy.
Qed.
(** An INTEGER that an UPDATE has put into a DATE or TIME column (C119) is compared with a plain text as the number of the day or
    second. *)
Theorem c118_updated_number (t : cty) (s : list N) (z a : Z) (op : cop) :
  t = TDate \/ t = TTime -> parse t s = None -> says cal t s = Some z -> answers (compare t (VInt a) op (Plain s)) (holds op a z).
Proof.
  intros Ht Hp Hs. unfold DlModel.compare, plan_right. cbn [lit_type].
  assert (Hc : cast_to show_dec read_dec read_float to_f32 (chrono cal) (VVar s) t = moment t z).
  { apply cast_moment; try easy; destruct Ht as [-> | ->]; unfold temporal; intuition easy. }
  rewrite Hc. destruct Ht as [-> | ->]; exists (rel op a z); (split; [reflexivity | apply rel_holds]).
Qed.
End Props.
Print Assumptions c118_updated_number.
Print Assumptions c118_plain_partial.
Print Assumptions c118_timestamp_partial.
Print Assumptions c118_midnight_partial.
Print Assumptions c118_insert_refuted.
Print Assumptions c118_compare_refuted.
Print Assumptions c118_before_1970_refuted.
Print Assumptions c118_time_refuted.
Print Assumptions c118_digits_refuted.

(** A calendar that reads 2024-01-31, 1969-07-20, 12:00:00 and 2024-01-31 12:00:00. *)
Definition t_date : list N := [50; 48; 50; 52; 45; 48; 49; 45; 51; 49]%N.
Definition t_old : list N := [49; 57; 54; 57; 45; 48; 55; 45; 50; 48]%N.
Definition t_time : list N := [49; 50; 58; 48; 48; 58; 48; 48]%N.
Definition t_ts : list N := t_date ++ 32%N :: t_time.
Definition cal0 : calendar :=
  {| day_of := fun s => if decide (s = t_date) then Some 19753 else if decide (s = t_old) then Some (-165) else None;
     second_of := fun s => if decide (s = t_time) then Some 43200 else None;
     instant_of := fun s => if decide (s = t_ts) then Some (19753 * 86400 + 43200) else None |}.
Example c118_ex :
  (parse TDate t_date = None /\ says cal0 TDate t_date = Some 19753) /\
  (parse TTime t_time = None /\ says cal0 TTime t_time = Some 43200) /\
  (parse TTs t_ts = None /\ says cal0 TTs t_ts = Some 1706702400) /\
  day_of cal0 t_old = Some (-165) /\ second_of cal0 t_time = Some 43200 /\
  moment TDate 19752 = Some (VDate 19752) /\ fits TDate 20240131 /\
  compare cal0 (fun _ _ => []) (fun _ => None) (fun _ => None) (fun n k => (n, k)) (fun _ _ _ => false) TDate (VDate 19752) Lt (Plain t_date)
    = Some (Some true).
Proof. repeat split; vm_compute; easy. Qed.
