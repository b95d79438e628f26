(** * What a hash block page should do *)
From stdpp Require Import list.

Section Spec.
Context {K V : Type}.

(** What is asked of a page. *)
Inductive op := Insert (k : K) (v : V) | Remove (k : K) (v : V) | Get (k : K) | Count.
(** What it answers. *)
Inductive ans := ABool (b : bool) | AVals (l : list V) | ANum (n : nat).

Context (same : K -> K -> bool) (vsame : V -> V -> bool).

(** The pairs a page holds, oldest first. *)
Notation bag := (list (K * V)).
Definition has_key (k : K) (b : bag) : bool := existsb (fun e => same e.1 k) b.
Definition values_of (k : K) (b : bag) : list V := map snd (List.filter (fun e => same e.1 k) b).
(** Without the first pair of this key and this value. *)
Fixpoint drop_pair (k : K) (v : V) (b : bag) : bag :=
  match b with
  | [] => []
  | e :: b => if same e.1 k && vsame e.2 v then b else e :: drop_pair k v b
  end.
Definition has_pair (k : K) (v : V) (b : bag) : bool := existsb (fun e => same e.1 k && vsame e.2 v) b.

(** The pairs that were put in and not taken out, by a history of requests with their answers. *)
Definition after (b : bag) (e : op * ans) : bag :=
  match e with
  | (Insert k v, ABool true) => b ++ [(k, v)]
  | (Remove k v, ABool true) => drop_pair k v b
  | _ => b
  end.
Definition held (h : list (op * ans)) : bag := fold_left after h [].

(** The number of insertions that were accepted. *)
Definition accepted (h : list (op * ans)) : nat :=
  length (List.filter (fun e => match e with (Insert _ _, ABool true) => true | _ => false end) h).
Definition is_remove (o : op) : bool := match o with Remove _ _ => true | _ => false end.
End Spec.
Global Arguments op : clear implicits.
Global Arguments ans : clear implicits.

(** The bytes of a page, of the pairs on it, and of two bits for each pair. *)
Definition page_bytes : nat := 4096.
Definition bytes_for (n size : nat) : nat := n * size + 2 * ((n + 7) / 8).
