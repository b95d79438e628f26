(** * Equality, order and hash of values (src/types_db/value.rs:2288-2425)

    Simplifications: the bits of a float are the float as in VordSpec.v; a hash is the list of the words fed to the hasher (a text is fed as a whole). *)
From Coq Require Import ZArith.
From stdpp Require Import base list numbers.
From Verif Require Import VordSpec.
Local Open Scope nat_scope.

(** value.rs:11-34: the position of a variant; derive(PartialOrd) compares it first. *)
Definition iidx (k : ikind) : nat :=
  match k with KBoolean => 0 | KTinyInt => 1 | KSmallInt => 2 | KInteger => 3 | KBigInt => 4
             | KTimestamp => 7 | KDate => 8 | KTime => 9 | KInterval => 10 end.
Definition fidx (k : fkind) : nat := match k with KDecimal => 5 | KFloat => 6 end.
Definition sidx (k : skind) : nat :=
  match k with KVarLen => 11 | KConstLen => 12 | KBinary => 13 | KJson => 14 | KUuid => 15 end.
Definition vidx (k : vkind) : nat := match k with KVector => 16 | KArray => 17 end.
Definition idx (x : content) : nat :=
  match x with
  | XInt k _ => iidx k
  | XFlt k _ => fidx k
  | XStr k _ => sidx k
  | XVec k _ => vidx k
  | XEnum _ _ => 18
  | XPoint _ _ => 19
  | XNull => 20
  | XStruct => 21
  end.

(** v == 0.0, is_nan. *)
Definition is_zero (f : flt) : bool := match f with NegZero => true | Num r => (r =? 0)%Z | NaN _ => false end.
Definition is_nan (f : flt) : bool := match f with NaN _ => true | _ => false end.
(** value.rs:2288-2308; the bits identify the number. *)
Definition canonical (f : flt) : flt :=
  if is_zero f then Num 0 else if is_nan f then NaN 0 else f.
#[global] Instance flt_eq_dec : EqDecision flt.
Proof. solve_decision. Defined.
Definition canon_eqb (f g : flt) : bool := bool_decide (canonical f = canonical g).
(** f64::partial_cmp. *)
Definition fcmp (f g : flt) : option comparison :=
  match fl_num f, fl_num g with
  | Some r, Some s => Some (r ?= s)%Z
  | _, _ => None
  end.
(** PartialEq and PartialOrd of String and Vec<u8>. *)
Fixpoint bytes_eqb (s t : list N) : bool :=
  match s, t with
  | [], [] => true
  | a :: s, b :: t => N.eqb a b && bytes_eqb s t
  | _, _ => false
  end.
Fixpoint bytes_cmp (s t : list N) : comparison :=
  match s, t with
  | [], [] => Eq
  | [], _ :: _ => Lt
  | _ :: _, [] => Gt
  | a :: s, b :: t => match N.compare a b with Eq => bytes_cmp s t | c => c end
  end.

Definition is_null (x : content) : bool := match x with XNull => true | _ => false end.

(** value.rs:2310-2333; on Vec<Value> element by element. The arms for Decimal and Float (2323-2324) are
    one; values of different variants are different by derive(PartialEq) of Val. *)
Fixpoint veq (a b : value) {struct a} : bool :=
  match a, b with
  | Val ta sa xa, Val tb sb xb =>
      let veqs := fix veqs (l m : list value) {struct l} : bool :=
        match l, m with
        | [], [] => true
        | x :: l, y :: m => veq x y && veqs l m
        | _, _ => false
        end in
      if is_null xa && is_null xb then true
      else if negb (Nat.eqb ta tb) then false
      else match xa, xb with
      | XFlt k f, XFlt k' g => Nat.eqb (fidx k) (fidx k') && canon_eqb f g
      | XPoint f f', XPoint g g' => canon_eqb f g && canon_eqb f' g'
      | XStruct, XStruct =>
          match sa, sb with
          | None, None => true
          | Some l, Some m => veqs l m
          | _, _ => false
          end
      | XInt k z, XInt k' z' => Nat.eqb (iidx k) (iidx k') && Z.eqb z z'
      | XStr k s, XStr k' s' => Nat.eqb (sidx k) (sidx k') && bytes_eqb s s'
      | XVec k l, XVec k' m => Nat.eqb (vidx k) (vidx k') && veqs l m
      | XEnum z s, XEnum z' s' => Z.eqb z z' && bytes_eqb s s'
      | _, _ => false
      end
  end.

(** value.rs:2337-2369; contents of different variants are compared by the position of the variant
    (derive(PartialOrd) of Val), which is where Decimal against Float (2366) ends up too. *)
Fixpoint vcmp (a b : value) {struct a} : option comparison :=
  match a, b with
  | Val ta sa xa, Val tb sb xb =>
      let vcmps := fix vcmps (l m : list value) {struct l} : option comparison :=
        match l, m with
        | [], [] => Some Eq
        | [], _ :: _ => Some Lt
        | _ :: _, [] => Some Gt
        | x :: l, y :: m => match vcmp x y with Some Eq => vcmps l m | o => o end
        end in
      if veq a b then Some Eq
      else match is_null xa, is_null xb with
      | true, true => Some Eq
      | true, false => Some Lt
      | false, true => Some Gt
      | false, false =>
          if negb (Nat.eqb ta tb) then Some (Nat.compare ta tb)
          else match Nat.compare (idx xa) (idx xb) with
          | Eq =>
              match xa, xb with
              | XFlt _ f, XFlt _ g => fcmp f g
              | XPoint f f', XPoint g g' => match fcmp f g with Some Eq => fcmp f' g' | o => o end
              | XStruct, XStruct =>
                  match sa, sb with
                  | None, None => Some Eq
                  | None, Some _ => Some Lt
                  | Some _, None => Some Gt
                  | Some l, Some m => vcmps l m
                  end
              | XInt _ z, XInt _ z' => Some (z ?= z')%Z
              | XStr _ s, XStr _ s' => Some (bytes_cmp s s')
              | XVec _ l, XVec _ m => vcmps l m
              | XEnum z s, XEnum z' s' => Some (match (z ?= z')%Z with Eq => bytes_cmp s s' | c => c end)
              | _, _ => Some Eq
              end
          | c => Some c
          end
      end
  end.

(** value.rs:2371-2425. *)
Inductive word := WTag (n : nat) | WLen (n : nat) | WInt (z : Z) | WFlt (c : flt) | WStr (s : list N).
Fixpoint vhash (v : value) : list word :=
  match v with
  | Val t sd x =>
      let hashes := fix hashes (l : list value) : list word :=
        match l with [] => [] | v :: l => vhash v ++ hashes l end in
      match x with
      | XNull => [WInt 0]
      | _ =>
          WTag t ::
          match x with
          | XStruct => match sd with Some l => WLen (length l) :: hashes l | None => [WLen 0] end
          | XInt _ z => [WInt z]
          | XFlt _ f => [WFlt (canonical f)]
          | XStr _ s => [WStr s]
          | XVec _ l => WLen (length l) :: hashes l
          | XEnum z s => [WInt z; WStr s]
          | XPoint f g => [WFlt (canonical f); WFlt (canonical g)]
          | XNull => []
          end
      end
  end.
