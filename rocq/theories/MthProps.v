(** C131: the methods of values answer what their names say. *)

From Coq Require Import List ZArith String Bool Lia.
From Verif Require Import MthSpec MthModel.
Import ListNotations.
Open Scope Z_scope.

(** ** Vectors *)

Lemma as_usize_nonneg i : 0 <= i < 2 ^ 64 -> as_usize i = i.
Proof. intros H. unfold as_usize. apply Z.mod_small. exact H. Qed.

Lemma as_usize_neg i : - 2 ^ 63 <= i < 0 -> 2 ^ 63 <= as_usize i.
Proof.
  intros H. unfold as_usize.
  rewrite <- (Z_mod_plus_full i 1 (2 ^ 64)).
  rewrite Z.mod_small; lia.
Qed.

Lemma in_range_big k i : in_range k i -> - 2 ^ 63 <= i < 2 ^ 63.
Proof.
  unfold in_range. destruct k; cbn [bits]; intros H.
  - change (2 ^ (8 - 1)) with 128 in H. lia.
  - change (2 ^ (16 - 1)) with 32768 in H. lia.
  - change (2 ^ (32 - 1)) with 2147483648 in H. lia.
  - exact H.
Qed.

(** The element at an index is the one there, counting from nought; an index
    that is negative or past the end is refused, of whatever kind it is. *)
Theorem c131_get :
  forall upper l k i name,
    In name ["get"; "at"]%string ->
    in_range k i ->
    Z.of_nat (List.length l) < 2 ^ 63 ->
    (0 <= i < Z.of_nat (List.length l) ->
       exists v, nth_error l (Z.to_nat i) = Some v /\
                 call upper (Vec l) name [Num k i] = Value v) /\
    (i < 0 \/ Z.of_nat (List.length l) <= i ->
       call upper (Vec l) name [Num k i] = Failed).
Proof.
  intros upper l k i name Hn Hk Hl. apply in_range_big in Hk.
  assert (Hc : call upper (Vec l) name [Num k i] = get_of (Vec l) [Num k i]).
  { destruct Hn as [<- | [<- | []]]; reflexivity. }
  rewrite Hc. unfold get_of. split.
  - intros Hi. rewrite as_usize_nonneg by lia.
    destruct (Z.ltb_spec i (Z.of_nat (List.length l))); [| lia].
    destruct (nth_error l (Z.to_nat i)) as [v |] eqn:E.
    + exists v. split; reflexivity.
    + apply nth_error_None in E. lia.
  - intros [Hi | Hi].
    + pose proof (as_usize_neg i ltac:(lia)).
      destruct (Z.ltb_spec (as_usize i) (Z.of_nat (List.length l))); [lia | reflexivity].
    + rewrite as_usize_nonneg by lia.
      destruct (Z.ltb_spec i (Z.of_nat (List.length l))); [lia | reflexivity].
Qed.

Example c131_get_ex :
  call (fun s => s) (Vec [Num Int 7; Num Int 8]) "at" [Num Tiny 1] = Value (Num Int 8) /\
  call (fun s => s) (Vec [Num Int 7; Num Int 8]) "get" [Num Tiny (-1)] = Failed /\
  in_range Tiny (-1).
Proof. unfold in_range. split; [| split]; [reflexivity | reflexivity | cbn; lia]. Qed.

(** Only a vector has elements, and only one integer names one. *)
Theorem c131_get_only :
  forall upper obj name args v,
    In name ["get"; "at"]%string ->
    call upper obj name args = Value v ->
    exists l k i, obj = Vec l /\ args = [Num k i] /\ In v l.
Proof.
  intros upper obj name args v Hn H.
  assert (Hc : get_of obj args = Value v).
  { destruct Hn as [<- | [<- | []]]; exact H. }
  unfold get_of in Hc.
  destruct args as [| a [| b args]]; try discriminate.
  destruct obj as [| | | l |]; try discriminate.
  destruct a as [k i | | | |]; try discriminate.
  destruct (as_usize i <? _); [| discriminate].
  destruct (nth_error l _) as [w |] eqn:E; [| discriminate].
  assert (w = v) by congruence. subst w.
  exists l, k, i. split; [reflexivity |]. split; [reflexivity |].
  eapply nth_error_In. exact E.
Qed.

Example c131_get_only_ex :
  call (fun s => s) (Text (of_string "abc")) "get" [Num Int 0] = Failed /\
  call (fun s => s) (Vec [Other 3]) "get" [Num Int 0] = Value (Other 3).
Proof. split; reflexivity. Qed.

Lemma as_i32_small n : 0 <= n < 2 ^ 31 -> as_i32 n = n.
Proof. intros H. unfold as_i32. rewrite Z.mod_small; lia. Qed.

(** The size of a vector is the number of its elements. *)
Theorem c131_size :
  forall upper l name,
    In name ["size"; "count"]%string ->
    Z.of_nat (List.length l) < 2 ^ 31 ->
    call upper (Vec l) name [] = Value (Num Int (Z.of_nat (List.length l))).
Proof.
  intros upper l name Hn Hl.
  assert (Hc : call upper (Vec l) name [] = size_of (Vec l) []).
  { destruct Hn as [<- | [<- | []]]; reflexivity. }
  rewrite Hc. unfold size_of. rewrite as_i32_small by lia. reflexivity.
Qed.

Example c131_size_ex :
  call (fun s => s) (Vec [Num Int 7; Other 1; Vec []]) "count" [] = Value (Num Int 3).
Proof. reflexivity. Qed.

(** ** The length of a text *)

Lemma byte_len_plain s : Forall plain_char s -> byte_len s = Z.of_nat (List.length s).
Proof.
  induction 1 as [| c s Hc _ IH]; [reflexivity |].
  cbn [byte_len List.length]. rewrite IH. unfold char_bytes, plain_char in *.
  destruct (Z.ltb_spec c 128); lia.
Qed.

(** Partial: the length of a text is the number of its characters if each is one
    of ASCII.  Missing: the other texts, for which it is refuted below. *)
Theorem c131_length_partial :
  forall upper s obj name args,
    In name ["length"; "len"]%string ->
    obj = Text s \/ obj = FixedText s ->
    Forall plain_char s ->
    Z.of_nat (List.length s) < 2 ^ 31 ->
    call upper obj name args = Value (Num Int (Z.of_nat (List.length s))).
Proof.
  intros upper s obj name args Hn Ho Hs Hl.
  assert (Hc : call upper obj name args = length_of obj).
  { destruct Hn as [<- | [<- | []]]; reflexivity. }
  rewrite Hc. unfold length_of.
  destruct Ho as [-> | ->]; rewrite (byte_len_plain s Hs), as_i32_small by lia; reflexivity.
Qed.

Example c131_length_partial_ex :
  Forall plain_char (of_string "ferrite") /\
  call (fun s => s) (Text (of_string "ferrite")) "len" [] = Value (Num Int 7).
Proof.
  split; [| reflexivity]. cbn. unfold plain_char.
  repeat (constructor; [lia |]). constructor.
Qed.

Lemma char_bytes_pos c : 1 <= char_bytes c.
Proof.
  unfold char_bytes. destruct (c <? 128); [lia |]. destruct (c <? 2048); [lia |].
  destruct (c <? 65536); lia.
Qed.

Lemma byte_len_ge s : Z.of_nat (List.length s) <= byte_len s.
Proof.
  induction s as [| c s IH]; [cbn; lia |].
  cbn [byte_len List.length]. pose proof (char_bytes_pos c). lia.
Qed.

Lemma byte_len_more s c : In c s -> 128 <= c -> Z.of_nat (List.length s) < byte_len s.
Proof.
  intros Hin Hc. induction s as [| d s IH]; [destruct Hin |].
  cbn [byte_len List.length]. destruct Hin as [-> | Hin].
  - pose proof (byte_len_ge s).
    assert (2 <= char_bytes c).
    { unfold char_bytes. destruct (Z.ltb_spec c 128); [lia |].
      destruct (c <? 2048); [lia |]. destruct (c <? 65536); lia. }
    lia.
  - specialize (IH Hin). pose proof (char_bytes_pos d). lia.
Qed.

Lemma byte_len_le4 s : byte_len s <= 4 * Z.of_nat (List.length s).
Proof.
  induction s as [| c s IH]; [cbn; lia |].
  cbn [byte_len List.length].
  assert (char_bytes c <= 4).
  { unfold char_bytes. destruct (c <? 128); [lia |]. destruct (c <? 2048); [lia |].
    destruct (c <? 65536); lia. }
  lia.
Qed.

(** Refuted: a text with any character outside ASCII has a length that is more
    than the number of its characters. *)
Theorem c131_length_refuted :
  forall upper s c name args,
    In name ["length"; "len"]%string ->
    In c s -> 128 <= c ->
    4 * Z.of_nat (List.length s) < 2 ^ 31 ->
    exists n, call upper (Text s) name args = Value (Num Int n) /\
              Z.of_nat (List.length s) < n.
Proof.
  intros upper s c name args Hn Hin Hc Hl.
  exists (byte_len s).
  pose proof (byte_len_more s c Hin Hc). pose proof (byte_len_le4 s).
  split; [| assumption].
  assert (He : call upper (Text s) name args = length_of (Text s)).
  { destruct Hn as [<- | [<- | []]]; reflexivity. }
  rewrite He. unfold length_of. rewrite as_i32_small by lia. reflexivity.
Qed.

Example c131_length_refuted_ex :
  call (fun s => s) (Text [233; 116; 233]) "length" [] = Value (Num Int 5).
Proof. reflexivity. Qed.

(** ** The value of a document *)

Lemma find_first c a b : ~ In c a -> find c (a ++ c :: b) = Some (List.length a).
Proof.
  induction a as [| x a IH]; intros Hn; cbn [find app List.length].
  - rewrite Z.eqb_refl. reflexivity.
  - destruct (Z.eqb_spec x c) as [-> | Hx].
    + exfalso. apply Hn. left. reflexivity.
    + rewrite IH; [reflexivity |]. intros Hi. apply Hn. right. exact Hi.
Qed.

Lemma rfind_none c s : ~ In c s -> rfind c s = None.
Proof.
  induction s as [| x s IH]; intros Hn; cbn [rfind]; [reflexivity |].
  rewrite IH by (intros Hi; apply Hn; right; exact Hi).
  destruct (Z.eqb_spec x c) as [-> | Hx]; [| reflexivity].
  exfalso. apply Hn. left. reflexivity.
Qed.

Lemma rfind_last c a b : ~ In c b -> rfind c (a ++ c :: b) = Some (List.length a).
Proof.
  intros Hn. induction a as [| x a IH]; cbn [rfind app List.length].
  - rewrite rfind_none by exact Hn. rewrite Z.eqb_refl. reflexivity.
  - rewrite IH. reflexivity.
Qed.

Lemma contains_in c s : In c s -> contains c s = true.
Proof.
  intros H. unfold contains. apply existsb_exists. exists c. split; [exact H |].
  apply Z.eqb_refl.
Qed.

Lemma contains_not c s : ~ In c s -> contains c s = false.
Proof.
  intros H. unfold contains. destruct (existsb (Z.eqb c) s) eqn:E; [| reflexivity].
  apply existsb_exists in E. destruct E as [x [Hx He]].
  apply Z.eqb_eq in He. subst x. contradiction.
Qed.

Lemma extract_element tag body close :
  ~ In gt tag -> ~ In lt close ->
  extract (element tag body close) =
  match body with [] => element tag body close | _ => body end.
Proof.
  intros Ht Hc.
  assert (Hf : find gt (element tag body close) = Some (S (List.length tag))).
  { unfold element. change (lt :: tag ++ gt :: body ++ lt :: close)
      with ((lt :: tag) ++ gt :: (body ++ lt :: close)).
    rewrite find_first; [reflexivity |].
    intros [Hi | Hi]; [discriminate Hi | contradiction]. }
  assert (Hr : rfind lt (element tag body close)
               = Some (S (S (List.length tag + List.length body)))).
  { assert (He : element tag body close = (lt :: tag ++ gt :: body) ++ lt :: close).
    { unfold element. cbn [app]. rewrite <- app_assoc. reflexivity. }
    rewrite He, rfind_last by exact Hc.
    cbn [List.length]. rewrite app_length. cbn [List.length]. f_equal. lia. }
  unfold extract.
  rewrite contains_in by (unfold element; left; reflexivity).
  rewrite contains_in
    by (unfold element; right; apply in_or_app; right; left; reflexivity).
  cbn [andb]. rewrite Hf, Hr.
  destruct body as [| b body].
  - cbn [List.length]. rewrite Nat.add_0_r.
    rewrite Nat.ltb_irrefl. reflexivity.
  - destruct (Nat.ltb_spec (S (S (List.length tag)))
                (S (S (List.length tag + List.length (b :: body))))) as [_ | Hl];
      [| cbn [List.length] in Hl; lia].
    unfold slice.
    replace (S (S (List.length tag + List.length (b :: body))) - S (S (List.length tag)))%nat
      with (List.length (b :: body)) by lia.
    assert (Hs : skipn (S (S (List.length tag))) (element tag (b :: body) close)
                 = (b :: body) ++ lt :: close).
    { assert (He : element tag (b :: body) close
                   = (lt :: tag ++ [gt]) ++ ((b :: body) ++ lt :: close)).
      { unfold element. cbn [app]. rewrite <- app_assoc. reflexivity. }
      rewrite He.
      replace (S (S (List.length tag))) with (List.length (lt :: tag ++ [gt]))
        by (cbn [List.length]; rewrite app_length; cbn [List.length]; lia).
      rewrite skipn_app, skipn_all, Nat.sub_diag. reflexivity. }
    rewrite Hs, firstn_app, firstn_all, Nat.sub_diag. cbn [firstn].
    apply app_nil_r.
Qed.

Lemma one_of_in s n names : In n names -> s = of_string n -> one_of s names = true.
Proof.
  intros Hi ->. unfold one_of. apply existsb_exists. exists n. split; [exact Hi |].
  unfold text_eqb. destruct (list_eq_dec Z.eq_dec _ _); [reflexivity | contradiction].
Qed.

Lemma value_text upper s p ty :
  text_type upper ty ->
  call upper (Text s) "value" [Text p; Text ty] = Value (Text (extract s)).
Proof.
  intros [n [Hi Hu]]. change (call upper (Text s) "value" [Text p; Text ty])
    with (value_of upper (Text s) [Text p; Text ty]).
  unfold value_of. cbn [as_text]. rewrite (one_of_in _ n _ Hi Hu). reflexivity.
Qed.

Lemma value_int upper s p ty :
  int_type upper ty ->
  call upper (Text s) "value" [Text p; Text ty] =
  match parse_i32 s with Some i => Value (Num Int i) | None => Failed end.
Proof.
  intros [n [Hi Hu]]. change (call upper (Text s) "value" [Text p; Text ty])
    with (value_of upper (Text s) [Text p; Text ty]).
  unfold value_of. cbn [as_text].
  rewrite (one_of_in (upper ty) n ["INT"; "INTEGER"]%string Hi Hu).
  destruct Hi as [<- | [<- | []]]; rewrite Hu; reflexivity.
Qed.

(** Partial: the text of a document that is one element is what stands between
    its tags, if something does.  Missing: the element with nothing in it, and
    the path, both refuted below. *)
Theorem c131_value_text_partial :
  forall upper tag body close p ty,
    text_type upper ty ->
    ~ In gt tag -> ~ In lt close -> body <> [] ->
    call upper (Text (element tag body close)) "value" [Text p; Text ty]
    = Value (Text body).
Proof.
  intros upper tag body close p ty Ht Hg Hl Hb.
  rewrite value_text by exact Ht. rewrite extract_element by assumption.
  destruct body; [contradiction Hb; reflexivity | reflexivity].
Qed.

Example c131_value_text_partial_ex :
  element (of_string "n") (of_string "a>b<c") (of_string "/n>") = of_string "<n>a>b<c</n>" /\
  call (fun s => s) (Text (of_string "<n>a>b<c</n>")) "value"
    [Text (of_string "/n"); Text (of_string "VARCHAR")] = Value (Text (of_string "a>b<c")).
Proof. split; reflexivity. Qed.

(** Refuted: an element with nothing in it has as its text its own tags. *)
Theorem c131_value_empty_refuted :
  forall upper tag close p ty,
    text_type upper ty ->
    ~ In gt tag -> ~ In lt close ->
    exists t, call upper (Text (element tag [] close)) "value" [Text p; Text ty]
              = Value (Text t) /\ t = element tag [] close /\ t <> [].
Proof.
  intros upper tag close p ty Ht Hg Hl. exists (element tag [] close).
  rewrite value_text by exact Ht. rewrite extract_element by assumption.
  split; [reflexivity |]. split; [reflexivity |]. discriminate.
Qed.

Example c131_value_empty_refuted_ex :
  call (fun s => s) (Text (of_string "<n></n>")) "value"
    [Text (of_string "/n"); Text (of_string "VARCHAR")] = Value (Text (of_string "<n></n>")).
Proof. reflexivity. Qed.

(** A text without tags is its own value. *)
Theorem c131_value_plain :
  forall upper s p ty,
    text_type upper ty ->
    ~ In lt s \/ ~ In gt s ->
    call upper (Text s) "value" [Text p; Text ty] = Value (Text s).
Proof.
  intros upper s p ty Ht Hs. rewrite value_text by exact Ht.
  unfold extract. destruct Hs as [Hs | Hs]; rewrite (contains_not _ _ Hs).
  - reflexivity.
  - rewrite andb_false_r. reflexivity.
Qed.

Example c131_value_plain_ex :
  call (fun s => s) (Text (of_string "a<b")) "value"
    [Text (of_string "/n"); Text (of_string "VARCHAR")] = Value (Text (of_string "a<b")).
Proof. reflexivity. Qed.

(** Refuted: the path chooses nothing.  Of a document with two elements inside
    one, every path gets both, tags and all, and neither one's content. *)
Theorem c131_value_path_refuted :
  forall upper root rclose a ac x b bc y p ty,
    text_type upper ty ->
    ~ In gt root -> ~ In lt rclose ->
    exists t,
      call upper (Text (element root (element a x ac ++ element b y bc) rclose)) "value"
        [Text p; Text ty] = Value (Text t) /\
      t = element a x ac ++ element b y bc /\ t <> x /\ t <> y.
Proof.
  intros upper root rclose a ac x b bc y p ty Ht Hg Hl.
  exists (element a x ac ++ element b y bc).
  assert (La : forall t u c, (List.length u < List.length (element t u c))%nat).
  { intros t u c. unfold element. cbn [List.length]. rewrite app_length.
    cbn [List.length]. rewrite app_length. lia. }
  split; [| split; [reflexivity |]].
  - apply c131_value_text_partial; try assumption. unfold element. discriminate.
  - pose proof (La a x ac). pose proof (La b y bc).
    split; intros E; apply (f_equal (@List.length Z)) in E;
      rewrite app_length in E; lia.
Qed.

Example c131_value_path_refuted_ex :
  call (fun s => s) (Text (of_string "<r><a>1</a><b>2</b></r>")) "value"
    [Text (of_string "/r/b"); Text (of_string "VARCHAR")]
  = Value (Text (of_string "<a>1</a><b>2</b>")).
Proof. reflexivity. Qed.

(** ** Numbers *)

Lemma is_digit_ok d : is_digit d = true <-> digit d.
Proof. unfold is_digit, digit. rewrite andb_true_iff, !Z.leb_le. reflexivity. Qed.

Lemma digits_from_snoc s : forall acc d,
  digits_from acc (s ++ [d]) =
  match digits_from acc s with
  | Some a => if is_digit d then Some (10 * a + (d - 48)) else None
  | None => None
  end.
Proof.
  induction s as [| c s IH]; intros acc d; cbn [digits_from app].
  - reflexivity.
  - destruct (is_digit c); [apply IH | reflexivity].
Qed.

Lemma number_snoc s d :
  s <> [] ->
  number (s ++ [d]) =
  match number s with
  | Some a => if is_digit d then Some (10 * a + (d - 48)) else None
  | None => None
  end.
Proof.
  intros Hs. destruct s as [| c s]; [contradiction Hs; reflexivity |].
  cbn [number app]. apply (digits_from_snoc (c :: s)).
Qed.

Lemma digits_all s v : digits s v -> Forall digit s /\ s <> [].
Proof.
  induction 1 as [d Hd | s v d _ [IH _] Hd].
  - split; [constructor; [exact Hd | constructor] | discriminate].
  - split; [apply Forall_app; split; [exact IH | constructor; [exact Hd | constructor]] |].
    destruct s; discriminate.
Qed.

Lemma number_ok s : forall v, number s = Some v <-> digits s v.
Proof.
  induction s as [| d s IH] using rev_ind; intros v.
  - split; [discriminate |]. intros H. destruct (digits_all _ _ H) as [_ Hn].
    contradiction Hn; reflexivity.
  - destruct s as [| c s].
    + cbn [app number digits_from]. split.
      * destruct (is_digit d) eqn:E; [| discriminate]. intros H.
        assert (Hv : v = d - 48) by (assert (10 * 0 + (d - 48) = v) by congruence; lia).
        subst v. constructor. apply is_digit_ok. exact E.
      * intros H. inversion H as [d' Hd E1 E2 | s' v' d' Hs Hd E1 E2].
        -- apply is_digit_ok in Hd. rewrite Hd. f_equal.
        -- destruct (digits_all _ _ Hs) as [_ Hn]. destruct s' as [| c' [| e s']];
             [contradiction Hn; reflexivity | discriminate | discriminate].
    + rewrite number_snoc by discriminate. split.
      * destruct (number (c :: s)) as [a |] eqn:Ea; [| discriminate].
        destruct (is_digit d) eqn:Ed; [| discriminate]. intros H.
        assert (Hv : 10 * a + (d - 48) = v) by congruence. subst v.
        constructor; [apply IH; reflexivity | apply is_digit_ok; exact Ed].
      * intros H. inversion H as [d' Hd E1 E2 | s' v' d' Hs Hd E1 E2].
        -- destruct s; discriminate.
        -- apply (app_inj_tail s' (c :: s)) in E1. destruct E1 as [-> ->].
           apply IH in Hs. rewrite Hs. apply is_digit_ok in Hd. rewrite Hd. reflexivity.
Qed.

Lemma signed_ok s v : signed s = Some v <-> numeral s v.
Proof.
  split.
  - destruct s as [| c s]; [discriminate |]. unfold signed.
    destruct (Z.eqb_spec c 43) as [-> | H43].
    { intros H. apply plus. apply number_ok. exact H. }
    destruct (Z.eqb_spec c 45) as [-> | H45].
    { destruct (number s) as [a |] eqn:E; [| discriminate]. intros H.
      assert (Hv : - a = v) by (cbn [option_map] in H; congruence). subst v.
      apply minus. apply number_ok. exact E. }
    intros H. apply unsigned. apply number_ok. exact H.
  - intros H. destruct H as [s v H | s v H | s v H].
    + destruct (digits_all _ _ H) as [Hd Hn].
      destruct s as [| c s]; [contradiction Hn; reflexivity |].
      inversion Hd as [| c' s' Hc Hs]; subst. unfold digit in Hc. unfold signed.
      destruct (Z.eqb_spec c 43); [lia |]. destruct (Z.eqb_spec c 45); [lia |].
      apply number_ok. exact H.
    + cbn [signed]. apply number_ok in H. exact H.
    + cbn [signed]. apply number_ok in H. change (45 =? 43) with false.
      change (45 =? 45) with true. cbv iota. rewrite H. reflexivity.
Qed.

(** A text is taken for the integer it writes, if that fits a column of integers,
    and is refused otherwise. *)
Theorem c131_value_int :
  forall upper s p ty,
    int_type upper ty ->
    (forall i, call upper (Text s) "value" [Text p; Text ty] = Value (Num Int i) <->
               numeral s i /\ in_range Int i) /\
    ((forall i, numeral s i -> ~ in_range Int i) ->
     call upper (Text s) "value" [Text p; Text ty] = Failed).
Proof.
  intros upper s p ty Ht. rewrite value_int by exact Ht. unfold parse_i32.
  assert (Hr : forall i, (- 2 ^ 31 <=? i) && (i <? 2 ^ 31) = true <-> in_range Int i).
  { intros i. unfold in_range. cbn [bits]. change (32 - 1) with 31.
    rewrite andb_true_iff, Z.leb_le, Z.ltb_lt. reflexivity. }
  split.
  - intros i. split.
    + destruct (signed s) as [v |] eqn:E; [| discriminate].
      destruct ((- 2 ^ 31 <=? v) && (v <? 2 ^ 31)) eqn:B; [| discriminate].
      intros H. assert (v = i) by congruence. subst v.
      split; [apply signed_ok; exact E | apply Hr; exact B].
    + intros [Hn Hi]. apply signed_ok in Hn. rewrite Hn. apply Hr in Hi. rewrite Hi.
      reflexivity.
  - intros Hno. destruct (signed s) as [v |] eqn:E; [| reflexivity].
    destruct ((- 2 ^ 31 <=? v) && (v <? 2 ^ 31)) eqn:B; [| reflexivity].
    exfalso. apply (Hno v); [apply signed_ok; exact E | apply Hr; exact B].
Qed.

Example c131_value_int_ex :
  call (fun s => s) (Text (of_string "-42")) "value"
    [Text (of_string "/n"); Text (of_string "INT")] = Value (Num Int (-42)) /\
  call (fun s => s) (Text (of_string "2147483648")) "value"
    [Text (of_string "/n"); Text (of_string "INT")] = Failed.
Proof. split; reflexivity. Qed.

(** Refuted: of an element no integer can be had, whatever stands in it. *)
Theorem c131_value_int_element_refuted :
  forall upper tag body close p ty,
    int_type upper ty ->
    call upper (Text (element tag body close)) "value" [Text p; Text ty] = Failed.
Proof.
  intros upper tag body close p ty Ht.
  apply (c131_value_int upper (element tag body close) p ty Ht).
  intros i Hn _. unfold element in Hn.
  inversion Hn as [s v Hd E1 E2 | s v Hd E1 E2 | s v Hd E1 E2].
  destruct (digits_all _ _ Hd) as [Ha _].
  inversion Ha as [| c s' Hc Hs E3]. unfold digit, lt in Hc. lia.
Qed.

Example c131_value_int_element_refuted_ex :
  call (fun s => s) (Text (of_string "<n>42</n>")) "value"
    [Text (of_string "/n"); Text (of_string "INT")] = Failed /\
  call (fun s => s) (Text (of_string "<n>42</n>")) "value"
    [Text (of_string "/n"); Text (of_string "VARCHAR")] = Value (Text (of_string "42")).
Proof. split; reflexivity. Qed.

Print Assumptions c131_get.
Print Assumptions c131_get_only.
Print Assumptions c131_size.
Print Assumptions c131_length_partial.
Print Assumptions c131_length_refuted.
Print Assumptions c131_value_text_partial.
Print Assumptions c131_value_empty_refuted.
Print Assumptions c131_value_plain.
Print Assumptions c131_value_path_refuted.
Print Assumptions c131_value_int.
Print Assumptions c131_value_int_element_refuted.
