(** * C117: the fields of structs and JSON documents can be read *)
From Coq Require Import ZArith NArith Lia.
From stdpp Require Import list.
From Verif Require Import CastSpec CastModel ArrSpec ArrModel JfSpec JfModel JfProofs.
Local Open Scope Z_scope.

(** Full property: field access on a JSON document (or a struct) gives the value at that path, and an error exactly if the
    document has nothing there; from SQL, e.f, e['f'] and e[n] are that access. *)

(** The access expression, for every text read as a document, every document and every path: what is at the path is what comes back.
    [reads] and [writes] are the JSON library; the premise is that it reads back the objects of this document as it wrote them. *)
Theorem c117_path (reads : text -> option json) (writes : list (text * json) -> text) (s : text) (doc j : json) (p : list key) :
  reads s = Some doc ->
  (forall o, within (JObj o) doc -> reads (writes o) = Some (JObj o)) ->
  Forall sound_key p -> p <> [] -> at_path p doc = Some j ->
  exists v, access reads writes (MSc (VVar s)) p = Some v /\ stands reads v j.
Proof.
  intros Hr Hb Hk Hn Hp.
  destruct (access_path reads writes p (MSc (VVar s)) doc j Hb Hk) as (v & Ha & Hs & _).
  - right. exists s. split; [left; easy | exact Hr].
  - exact Hp.
  - exists v. split; [exact Ha | exact (Hs Hn)].
Qed.
Print Assumptions c117_path.

(** If there is nothing at the path, it is an error, provided that no string of the document is itself the text of an object or
    array. *)
Theorem c117_missing_partial (reads : text -> option json) (writes : list (text * json) -> text) (s : text) (doc : json) (p : list key) :
  reads s = Some doc ->
  (forall o, within (JObj o) doc -> reads (writes o) = Some (JObj o)) ->
  sized doc -> (forall t j, within (JStr t) doc -> reads t = Some j -> ~ container j) ->
  Forall sound_key p -> at_path p doc = None ->
  access reads writes (MSc (VVar s)) p = None.
Proof.
  intros Hr Hb Hz Hps Hk Hp. apply (access_missing reads writes p (MSc (VVar s)) doc); try easy.
  right. exists s. split; [left; easy | exact Hr].
Qed.
Print Assumptions c117_missing_partial.

(** A small document: {"a": [7, {"b": true}]}, its text and the text of its inner object being 1 and 2. *)
Definition inner : list (text * json) := [([98%N], JBool true)].
Definition outer : list (text * json) := [([97%N], JArr [JInt 7; JObj inner])].
Definition reads0 (s : text) : option json := if decide (s = [1%N]) then Some (JObj outer) else if decide (s = [2%N]) then Some (JObj inner) else None.
Definition writes0 (o : list (text * json)) : text := if decide (length o = 1%nat /\ member [98%N] o <> None) then [2%N] else [1%N].
Definition path0 : list key := [KStr [97%N]; KNum 1; KStr [98%N]].
Lemma within0 j : within j (JObj outer) -> j = JObj outer \/ j = JArr [JInt 7; JObj inner] \/ j = JInt 7 \/ j = JObj inner \/ j = JBool true.
Proof.
  assert (Hb : forall p x, at_path p (JBool true) = Some x -> x = JBool true) by (intros [|[?|?] p] x H; cbn in H; congruence).
  assert (H7 : forall p x, at_path p (JInt 7) = Some x -> x = JInt 7) by (intros [|[?|?] p] x H; cbn in H; congruence).
  assert (Hi : forall p x, at_path p (JObj inner) = Some x -> x = JObj inner \/ x = JBool true).
  { intros [|[n|i] p] x H; cbn [at_path step inner member] in H; [left; congruence | | easy].
    destruct (decide ([98%N] = n)); [|easy]. right. eapply Hb. exact H. }
  intros [[|[n|i] p] H]; cbn [at_path step outer member] in H; [left; congruence | | easy].
  destruct (decide ([97%N] = n)); [|easy]. right.
  destruct p as [|[m|i] p]; cbn [at_path step] in H; [left; congruence | easy |]. right.
  destruct (i <? 0); [easy|]. destruct (Z.to_nat i) as [|[|k]]; cbn in H; [| |easy].
  - left. eapply H7. exact H.
  - right. destruct (Hi p j H) as [-> | ->]; auto.
Qed.
Example c117_path_ex :
  reads0 [1%N] = Some (JObj outer) /\
  (forall o, within (JObj o) (JObj outer) -> reads0 (writes0 o) = Some (JObj o)) /\
  Forall sound_key path0 /\ at_path path0 (JObj outer) = Some (JBool true) /\
  access reads0 writes0 (MSc (VVar [1%N])) path0 = Some (MSc (VBool true)) /\
  sized (JObj outer) /\ (forall t j, within (JStr t) (JObj outer) -> reads0 t = Some j -> ~ container j) /\
  at_path [KStr [97%N]; KNum (-1)] (JObj outer) = None.
Proof.
  split; [easy|]. split.
  { intros o Ho. apply within0 in Ho as [H | [H | [H | [H | H]]]]; try discriminate; injection H as ->; vm_compute; reflexivity. }
  split; [repeat constructor; cbn; lia|]. split; [easy|]. split; [vm_compute; reflexivity|]. split.
  { intros l Hl. apply within0 in Hl as [H | [H | [H | [H | H]]]]; try discriminate. injection H as ->. unfold short. cbn. lia. }
  split; [|easy]. intros t j Ht. apply within0 in Ht as [H | [H | [H | [H | H]]]]; discriminate.
Qed.

(** Refuted: a string is entered as if it were part of the document when its contents happen to be JSON: nothing is at
    ['a']['b'] of such a document, but the access finds something, for every [o] with a member 'b'. *)
Theorem c117_string_refuted (reads : text -> option json) (writes : list (text * json) -> text) (s t a b : text) (o : list (text * json)) (j : json) :
  reads s = Some (JObj [(a, JStr t)]) -> reads t = Some (JObj o) -> member b o = Some j ->
  at_path [KStr a; KStr b] (JObj [(a, JStr t)]) = None /\
  access reads writes (MSc (VVar s)) [KStr a; KStr b] = Some (json_to_value writes j).
Proof.
  intros H1 H2 H3. cbn [at_path step member access access_value]. unfold access_text at 1. rewrite H1. cbn [member].
  rewrite decide_True by easy. split; [easy|]. cbn [fmap option_fmap option_map json_to_value access_value].
  unfold access_text. rewrite H2, H3. easy.
Qed.
Print Assumptions c117_string_refuted.
Example c117_string_ex :
  let reads := fun s : text => if decide (s = [1%N]) then Some (JObj [([97%N], JStr [2%N])]) else reads0 s in
  reads [1%N] = Some (JObj [([97%N], JStr [2%N])]) /\ reads [2%N] = Some (JObj inner) /\ member [98%N] inner = Some (JBool true).
Proof. easy. Qed.

Section Sql.
Context (reads : text -> option json) (writes : list (text * json) -> text) {R : Type}.
Notation frun := (frun reads writes).
Notation feval := (feval reads writes).

(** A STRUCT expression is the list of its values, in order: if every operand has a value, so has it. *)
Theorem c117_struct (names : list text) (es : list (fsrc R)) (r : R) (vs : list mval) :
  Forall2 (fun e v => frun e r = Some v) es vs -> frun (SStruct names es) r = Some (MVec vs).
Proof. exact (struct_vec reads writes names es r vs). Qed.

(** e[n] of a STRUCT is its field number n, counted from 0, and an error if there is none. *)
Theorem c117_position_partial (names : list text) (es : list (fsrc R)) (r : R) (vs : list mval) (i : Z) :
  Forall2 (fun e v => frun e r = Some v) es vs -> fits TBig i -> short vs ->
  frun (SNumber (SStruct names es) (Some i)) r = if i <? 0 then None else vs !! Z.to_nat i.
Proof. exact (struct_position reads writes names es r vs i). Qed.

(** Refuted: a field of a STRUCT can never be read by its name. *)
Theorem c117_struct_name_refuted (names : list text) (es : list (fsrc R)) (n : text) (r : R) :
  frun (SDot (SStruct names es) n) r = None /\ frun (SQuoted (SStruct names es) n) r = None.
Proof. exact (struct_name reads writes names es n r). Qed.

(** Refuted: nor can anything in a value of type JSON or in a value of a STRUCT column (or an INTERVAL), by name or number. *)
Theorem c117_json_refuted (t : aty) (f : R -> option mval) (r : R) (n : text) (i : option Z) :
  (exists s, f r = Some (MJson s)) \/ f r = Some MStruct ->
  frun (SDot (SLeaf t f) n) r = None /\ frun (SQuoted (SLeaf t f) n) r = None /\ frun (SNumber (SLeaf t f) i) r = None.
Proof. exact (json_leaf reads writes t f r n i). Qed.

(** Refuted: a number that is not a 64-bit whole number (as in e[1.5]) reads the first field. *)
Theorem c117_number_refuted (names : list text) (es : list (fsrc R)) (r : R) (v : mval) (vs : list mval) :
  Forall2 (fun e v => frun e r = Some v) es (v :: vs) -> frun (SNumber (SStruct names es) None) r = Some v.
Proof. exact (struct_number reads writes names es r v vs). Qed.

(** Refuted: a path of two steps is refused, whatever it is. *)
Theorem c117_nested_refuted (e : fsrc R) (n m : text) (i j : option Z) (r : R) :
  frun (SDot (SDot e n) m) r = None /\ frun (SQuoted (SQuoted e n) m) r = None /\ frun (SNumber (SNumber e i) j) r = None /\
  frun (SDot (SNumber e i) n) r = None /\ frun (SNumber (SDot e n) i) r = None.
Proof. exact (nested reads writes e n m i j r). Qed.

(** Refuted: e[c] with a column c does not look at the value of c, only at its name. *)
Theorem c117_column_refuted (e : fsrc R) (c d : R -> option mval) (n : text) (r : R) :
  frun (SName e (Some c) n) r = frun (SName e (Some d) n) r /\ frun (SName e (Some c) n) r = frun (SQuoted e n) r.
Proof. exact (column_name reads writes e c d n r). Qed.
End Sql.
Print Assumptions c117_struct.
Print Assumptions c117_position_partial.
Print Assumptions c117_struct_name_refuted.
Print Assumptions c117_json_refuted.
Print Assumptions c117_number_refuted.
Print Assumptions c117_nested_refuted.
Print Assumptions c117_column_refuted.

Definition two : list (fsrc unit) := [SLeaf (ATy TInt) (fun _ => Some (MSc (VInt 5))); SLeaf (ATy TVar) (fun _ => Some (MSc (VVar [65%N])))].
Example c117_struct_ex :
  Forall2 (fun e v => frun reads0 writes0 e tt = Some v) two [MSc (VInt 5); MSc (VVar [65%N])] /\
  frun reads0 writes0 (SNumber (SStruct [[97%N]; [98%N]] two) (Some 1)) tt = Some (MSc (VVar [65%N])) /\
  frun reads0 writes0 (SNumber (SStruct [[97%N]; [98%N]] two) None) tt = Some (MSc (VInt 5)).
Proof. split; [repeat constructor|]. easy. Qed.
Example c117_json_ex : (exists s, (fun _ : unit => Some (MJson [1%N])) tt = Some (MJson s)).
Proof. exists [1%N]. easy. Qed.

(** Refuted: any text at all can be cast to JSON. *)
Theorem c117_cast_refuted (s : text) : cast_json (VVar s) = Some (MJson s) /\ cast_json (VChar s) = Some (MJson s).
Proof. easy. Qed.
Print Assumptions c117_cast_refuted.
