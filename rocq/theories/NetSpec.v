(** * What a user of the network interface relies on *)
From Coq Require Import NArith ZArith List.
From Verif Require Import Bytes NetModel.
Import ListNotations.
Open Scope N_scope.

(** Bytes that were sent reach the other side complete and in order, but cut into reads
    anywhere: each read returns between one byte and a full buffer. *)
Definition arrives (buf : nat) (sent : list N) (reads : list (list N)) : Prop :=
  concat reads = sent /\ Forall (fun c => (1 <= length c <= buf)%nat) reads.

(** What one read of the server, and of the client, returns at most. *)
Definition srv_read : nat := N.to_nat 1024.
Definition cli_read : nat := N.to_nat 4096.

(** Every request is answered once, in order, each by the database as the previous ones
    left it. *)
Fixpoint answers {DB} (handle : DB -> request -> DB * response) (d : DB) (qs : list request)
  : DB * list response :=
  match qs with
  | [] => (d, [])
  | q :: qs => let (d1, p) := handle d q in let (d2, ps) := answers handle d1 qs in (d2, p :: ps)
  end.

(** Messages that can exist: strings are UTF-8, numbers have their types' ranges. *)
Definition small (n : nat) : Prop := N.of_nat n < 2 ^ 64.
Definition text (s : list N) : Prop := utf8_ok s = true /\ small (length s).
Definition range (b : Z) (z : Z) : Prop := (- b <= z < b)%Z.
Definition ok_val (v : val) : Prop :=
  match v with
  | VBool _ | VNull | VStruct => True
  | VTiny z => range (2 ^ 7) z
  | VSmall z => range (2 ^ 15) z
  | VInt z | VDate z | VTime z => range (2 ^ 31) z
  | VBig z | VInterval z => range (2 ^ 63) z
  | VDec x | VTs x => x < 2 ^ 64
  | VFloat x => x < 2 ^ 32
  | VVar s | VConst s | VJson s | VUuid s => text s
  | VBin s => small (length s)
  | VEnum z s => range (2 ^ 31) z /\ text s
  | VPoint x y => x < 2 ^ 64 /\ y < 2 ^ 64
  end.
Definition ok_value (v : value) : Prop :=
  ok_val (v_val v) /\ match v_size v with Length n => n < 2 ^ 64 | Elem t => t < 22 end /\ v_type v < 22.
Definition ok_list {A} (P : A -> Prop) (l : list A) : Prop := small (length l) /\ Forall P l.
Definition ok_req (q : request) : Prop :=
  match q with
  | Query s | Prepare s => text s
  | BeginTxn i => i < 5
  | Commit | Rollback => True
  | Execute i ps => i < 2 ^ 64 /\ ok_list ok_value ps
  | Close i => i < 2 ^ 64
  end.
Definition ok_resp (p : response) : Prop :=
  match p with
  | Results cs rs ms => ok_list text cs /\ ok_list (ok_list ok_value) rs /\ ok_list text ms
  | PrepareOk i ts => i < 2 ^ 64 /\ ok_list (fun t => t < 22) ts
  | Error m => text m
  end.

Definition ascii (s : list N) : Prop := Forall (fun b => b < 128) s.
