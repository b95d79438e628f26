(** * What a user expects of the write buffer, the coalescer and the page ranges *)
From Coq Require Import NArith Lia.
From stdpp Require Import gmap list sorting.

(** Contents are lists of bytes. *)
Notation bytes := (list N).

(** ** The staging buffer: calls and answers *)
Inductive wop := WWrite (p : N) (d : bytes) | WDrain.
Inductive wout := WTaken (ok : bool) | WPages (l : list (N * bytes)).
(** What is buffered, as seen by the caller: the last accepted content of each page since the last drain. *)
Definition wsee (m : gmap N bytes) (e : wop * wout) : gmap N bytes :=
  match e with
  | (WWrite p d, WTaken true) => <[p := d]> m
  | (WDrain, _) => ∅
  | _ => m
  end.
Definition buffered (tr : list (wop * wout)) : gmap N bytes := fold_left wsee tr ∅.
(** Number of bytes in a set of pages. *)
Definition total (m : gmap N bytes) : nat := sum_list_with (fun e : N * bytes => length e.2) (map_to_list m).

(** ** The coalescer *)
(** [order] is the order in which the table of times is walked; [extra] are the pages chosen under memory
    pressure or for low use. *)
Inductive eop :=
| EWrite (p : N) (d : bytes) (now : N) (order : list (N * N))
| EExpire (now : N) (extra : list N)
| EConfig (window : N) (max : nat)
| EClear (now : N).
(** One answered call: the call, the content handed back, whether it succeeded. *)
Notation ecall := (eop * option bytes * bool)%type.
(** The content last submitted for each page; an empty content is refused. *)
Definition last_write (m : gmap N bytes) (x : ecall) : gmap N bytes :=
  match x.1.1 with EWrite p [] _ _ => m | EWrite p d _ _ => <[p := d]> m | _ => m end.
Definition submitted (tr : list ecall) : gmap N bytes := fold_left last_write tr ∅.

(** ** Ranges of pages *)
Record prange := mkRange { r_start : N; r_end : N; r_size : N }.
Definition covers (r : prange) (p : N) : Prop := (r_start r <= p <= r_end r)%N.
(** Two ranges with at least one page between them, in order. *)
Definition apart (r s : prange) : Prop := (r_end r + 1 < r_start s)%N.
Global Instance covers_dec r p : Decision (covers r p).
Proof. unfold covers. apply _. Defined.
(** Bytes of the pages of a range: a page that is not pending counts for a whole page. *)
Definition bytes_in (pend : gmap N bytes) (r : prange) : N :=
  fold_right (fun k s => match pend !! (r_start r + N.of_nat k)%N with Some d => N.of_nat (length d) | None => 4096 end + s)%N 0%N
    (seq 0 (N.to_nat (r_end r + 1 - r_start r))).
