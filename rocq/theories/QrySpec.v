(** Specification for C98: what an ungrouped SELECT over one table returns.  The
    syntax of the queries and their meaning by the SQL standard; the planner and
    the executors are not mentioned.  Values, expressions over column positions
    and their evaluation are those of ExprModel.v (what they mean is C50, C51,
    C96 and others); sorting and duplicate removal on plain lists are in
    ExecSpec.v. *)
From Coq Require Import Strings.String ZArith List Bool.
From Verif Require Import ExprModel ExecSpec NameSpec.
Import ListNotations.
Local Open Scope nat_scope.
Local Open Scope list_scope.

(** ** Queries as they are written *)

(** Expressions over column names. *)
Inductive nexpr :=
| NCol (c : string)
| NConst (v : val)
| NArith (op : arith) (a b : nexpr)
| NCmp (op : cmpop) (a b : nexpr)
| NAnd (a b : nexpr)
| NOr (a b : nexpr)
| NNot (a : nexpr)
| NIs (c : ischeck) (neg : bool) (a : nexpr).

(** An item of the SELECT list. *)
Inductive sitem := IStar | IExpr (e : nexpr) (alias : option string).

(** A key of ORDER BY: the expression, DESC, and NULLS FIRST (true) or LAST
    (false) if it is written. *)
Record okey := Key { k_expr : nexpr; k_desc : bool; k_nulls_first : option bool }.

(** [FETCH FIRST n [PERCENT] ROWS {ONLY | WITH TIES}]. *)
Record fetch := Fetch { f_quantity : nat; f_percent : bool; f_ties : bool }.

Record query := Query {
  q_distinct : bool;
  q_items : list sitem;
  q_where : option nexpr;
  q_order : list okey;
  q_offset : option nat;
  q_limit : option nat;
  q_fetch : option fetch
}.

(** ** Names *)

(** The column [i] is the one called [c]. *)
Definition named (cols : list string) (c : string) (i : nat) : Prop :=
  nth_error cols i = Some c /\ forall j, nth_error cols j = Some c -> j = i.

(** The expression over positions an expression over names stands for. *)
Inductive denotes (cols : list string) : nexpr -> expr -> Prop :=
| dn_col c i : named cols c i -> denotes cols (NCol c) (ECol i)
| dn_const v : denotes cols (NConst v) (EConst v)
| dn_arith op a b x y : denotes cols a x -> denotes cols b y ->
    denotes cols (NArith op a b) (EArith op x y)
| dn_cmp op a b x y : denotes cols a x -> denotes cols b y ->
    denotes cols (NCmp op a b) (ECmp op x y)
| dn_and a b x y : denotes cols a x -> denotes cols b y -> denotes cols (NAnd a b) (EAnd x y)
| dn_or a b x y : denotes cols a x -> denotes cols b y -> denotes cols (NOr a b) (EOr x y)
| dn_not a x : denotes cols a x -> denotes cols (NNot a) (ENot x)
| dn_is c neg a x : denotes cols a x -> denotes cols (NIs c neg a) (EIs c neg x).

(** The SELECT list with its stars written out: expressions and aliases. *)
Definition written_out (cols : list string) (items : list sitem) : list (nexpr * option string) :=
  flat_map (fun it => match it with
                      | IStar => map (fun c => (NCol c, None)) cols
                      | IExpr e a => [(e, a)]
                      end) items.

(** What a result column is called, if it has a name. *)
Definition called (it : nexpr * option string) : option string :=
  match snd it with
  | Some a => Some a
  | None => match fst it with NCol c => Some c | _ => None end
  end.

(** ** Results *)

Definition satisfies (cols : list string) (w : option nexpr) (r : row) : Prop :=
  match w with
  | None => True
  | Some n => exists e, denotes cols n e /\ eval e r = Ok (VBool true)
  end.

(** [kept] are the rows that satisfy WHERE, in order. *)
Inductive keeps (cols : list string) (w : option nexpr) : list row -> list row -> Prop :=
| ks_nil : keeps cols w [] []
| ks_yes r rows kept : satisfies cols w r -> keeps cols w rows kept ->
    keeps cols w (r :: rows) (r :: kept)
| ks_no r rows kept : ~ satisfies cols w r -> keeps cols w rows kept ->
    keeps cols w (r :: rows) kept.

(** The row [out] is what the SELECT list makes of [r]. *)
Definition shows (cols : list string) (items : list sitem) (r out : row) : Prop :=
  Forall2 (fun it v => exists e, denotes cols (fst it) e /\ eval e r = Ok v)
    (written_out cols items) out.

(** What a key of ORDER BY sorts by, as a position in the row of the table
    followed by the row of the result: a result column by its name or by its
    number, or a table column whose name is not that of a result column. *)
Inductive key_means (cols : list string) (items : list sitem) : nexpr -> nat -> Prop :=
| km_out c j it : nth_error (written_out cols items) j = Some it -> called it = Some c ->
    (forall k it2, nth_error (written_out cols items) k = Some it2 -> called it2 = Some c -> k = j) ->
    key_means cols items (NCol c) (length cols + j)
| km_number t z : (1 <= z <= Z.of_nat (length (written_out cols items)))%Z ->
    key_means cols items (NConst (VInt t z)) (length cols + (Z.to_nat z - 1))
| km_col c i : named cols c i ->
    (forall it, In it (written_out cols items) -> called it <> Some c) ->
    key_means cols items (NCol c) i.

(** OFFSET, LIMIT and FETCH ... ROWS ONLY. *)
Definition slice (q : query) (l : list row) : list row :=
  let skipped := match q_offset q with Some m => skipn m l | None => l end in
  let limited := match q_limit q with Some n => firstn n skipped | None => skipped end in
  match q_fetch q with Some f => firstn (f_quantity f) limited | None => limited end.

(** The answer of a query without NULLS FIRST/LAST, PERCENT and WITH TIES.
    Rows with equal keys stay in the order of the table (SQL leaves their order
    open; with the next clause any choice would do). *)
Inductive answer (cols : list string) (q : query) (rows : list row) : list row -> Prop :=
| an_all kept outs specs wide :
    q_distinct q = false ->
    keeps cols (q_where q) rows kept ->
    Forall2 (shows cols (q_items q)) kept outs ->
    Forall2 (fun k s => exists i, key_means cols (q_items q) (k_expr k) i /\ s = (ECol i, k_desc k))
      (q_order q) specs ->
    is_sorted_version specs (map (fun p => fst p ++ snd p) (combine kept outs)) wide ->
    answer cols q rows (slice q (map (skipn (length cols)) wide))
| an_distinct kept outs specs sorted :
    q_distinct q = true ->
    keeps cols (q_where q) rows kept ->
    Forall2 (shows cols (q_items q)) kept outs ->
    Forall2 (fun k s => exists j, key_means cols (q_items q) (k_expr k) (length cols + j) /\
                                  s = (ECol j, k_desc k))
      (q_order q) specs ->
    is_sorted_version specs (first_occurrences row_eq_dec outs) sorted ->
    answer cols q rows (slice q sorted).

(** ** The queries and tables the theorem ranges over *)

(** The columns an expression mentions. *)
Fixpoint mentions (n : nexpr) : list string :=
  match n with
  | NCol c => [c]
  | NConst _ => []
  | NArith _ a b | NCmp _ a b | NAnd a b | NOr a b => mentions a ++ mentions b
  | NNot a | NIs _ _ a => mentions a
  end.

Definition result_column (cols : list string) (items : list sitem) (c : string) : Prop :=
  exists it, In it (written_out cols items) /\ called it = Some c.

(** The keys of ORDER BY are all names of result columns, each the name of one
    result column only. *)
Definition orders_by_results (cols : list string) (q : query) : Prop :=
  forall k, In k (q_order q) -> exists c j it, k_expr k = NCol c /\
    nth_error (written_out cols (q_items q)) j = Some it /\ called it = Some c /\
    forall j2 it2, nth_error (written_out cols (q_items q)) j2 = Some it2 ->
      called it2 = Some c -> j2 = j.

(** Or all names of table columns, none the name of a result column, and there is
    at least one. *)
Definition orders_by_hidden (cols : list string) (q : query) : Prop :=
  q_order q <> [] /\
  forall k, In k (q_order q) -> exists c, k_expr k = NCol c /\ In c cols /\
    ~ result_column cols (q_items q) c.

(** The engine gives result columns without a name the text of their expression
    as a name; [text] prints expressions.  Such a name has no dot and is not the
    name of a sort key. *)
Definition quiet (text : nexpr -> string) (cols : list string) (q : query) : Prop :=
  forall e a, In (e, a) (written_out cols (q_items q)) -> called (e, a) = None ->
    dotless (text e) /\ forall k, In k (q_order q) -> k_expr k <> NCol (text e).

Record legal (cols : list string) (q : query) : Prop := {
  lg_cols : NoDup cols;
  lg_dotless : Forall dotless cols;
  lg_items : forall e a, In (IExpr e a) (q_items q) ->
    incl (mentions e) cols /\ match a with Some n => dotless n | None => True end;
  lg_where : match q_where q with Some n => incl (mentions n) cols | None => True end;
  lg_order : orders_by_results cols q \/ (q_distinct q = false /\ orders_by_hidden cols q);
  lg_nulls : forall k, In k (q_order q) -> k_nulls_first k = None;
  lg_fetch : match q_fetch q with Some f => f_percent f = false /\ f_ties f = false | None => True end;
}.

(** The table's rows have the table's columns, the items can be computed on the
    rows that satisfy WHERE, and sort keys have one type per column. *)
Definition one_type (l : list row) (i : nat) : Prop :=
  forall a b x y, In a l -> In b l -> nth_error a i = Some x -> nth_error b i = Some y ->
    x = VNull \/ y = VNull \/ type_of x = type_of y.
Definition computable (cols : list string) (q : query) (rows : list row) : Prop :=
  Forall (fun r => length r = length cols) rows /\
  (forall r it, In r rows -> satisfies cols (q_where q) r -> In it (written_out cols (q_items q)) ->
     exists e v, denotes cols (fst it) e /\ eval e r = Ok v) /\
  (forall i, one_type rows i) /\
  (forall kept outs i, keeps cols (q_where q) rows kept ->
     Forall2 (shows cols (q_items q)) kept outs -> one_type outs i).
