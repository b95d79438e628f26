(** * The wire protocol: requests, responses, the server's and the client's read loops

    Models src/server/protocol.rs (P), src/server/connection.rs (S),
    src/client/client_impl.rs (C) and the part of src/common/db_instance.rs (D) that
    answers requests about prepared statements.  Messages are serialised with the postcard
    crate: its wire format (varints, zigzag, length prefixes) is modelled here from its
    specification, since the crate is not part of the repository.

    Simplifications: the values of a message are modelled without nesting (no
    Val::Vector, Val::Array, struct_data); a float is its bit pattern; a string is its
    UTF-8 bytes; the texts of error messages made by the server itself are left out; a
    read or write of the socket that fails ends the connection and is not modelled. *)
From Coq Require Import NArith ZArith List Bool.
From Verif Require Import Bytes.
Import ListNotations.
Open Scope N_scope.

(** ** Decoders *)

(** A decoder takes a value off the front of the input, or fails. *)
Definition dec (A : Type) := list N -> option (A * list N).
Definition ret {A} (a : A) : dec A := fun bs => Some (a, bs).
Definition fail {A} : dec A := fun _ => None.
Definition bind {A B} (d : dec A) (f : A -> dec B) : dec B :=
  fun bs => match d bs with Some (a, r) => f a r | None => None end.
Notation "x <- d ;; e" := (bind d (fun x => e)) (at level 61, d at next level, right associativity).

(** ** postcard: varints

    An unsigned integer is written seven bits at a time, least significant first, with the
    top bit set on all bytes but the last. [k] is the largest number of bytes. *)
Fixpoint enc_var (k : nat) (x : N) : list N :=
  match k with
  | O => []
  | S k => if x <? 128 then [x] else (x mod 128 + 128) :: enc_var k (x / 128)
  end.

(** [m] is the largest last byte when all [k] bytes are used (max_of_last_byte). *)
Fixpoint dec_var (k : nat) (m : N) : dec N := fun bs =>
  match k, bs with
  | O, _ | _, [] => None
  | S k, b :: r =>
      if b <? 128 then
        (if (Nat.eqb k 0 && (m <? b))%bool then None else Some (b, r))
      else match dec_var k m r with
           | Some (x, r') => Some (b mod 128 + 128 * x, r')
           | None => None
           end
  end.

Definition enc_u16 := enc_var 3.  Definition dec_u16 := dec_var 3 3.
Definition enc_u32 := enc_var 5.  Definition dec_u32 := dec_var 5 15.
(** u64 and usize. *)
Definition enc_u64 := enc_var 10. Definition dec_u64 := dec_var 10 1.

(** Signed integers are zigzag encoded; i8 is a plain byte. *)
Definition zigzag (z : Z) : N := if (z <? 0)%Z then Z.to_N (- 2 * z - 1) else Z.to_N (2 * z).
Definition unzigzag (n : N) : Z :=
  if N.even n then Z.of_N (n / 2) else (- Z.of_N (n / 2) - 1)%Z.
Definition dec_byte : dec N := fun bs => match bs with b :: r => Some (b, r) | [] => None end.
Definition enc_i8 (z : Z) : list N := [Z.to_N (z mod 256)].
Definition dec_i8 : dec Z := b <- dec_byte ;; ret (if b <? 128 then Z.of_N b else (Z.of_N b - 256)%Z).
Definition enc_i16 (z : Z) := enc_u16 (zigzag z). Definition dec_i16 : dec Z := n <- dec_u16 ;; ret (unzigzag n).
Definition enc_i32 (z : Z) := enc_u32 (zigzag z). Definition dec_i32 : dec Z := n <- dec_u32 ;; ret (unzigzag n).
Definition enc_i64 (z : Z) := enc_u64 (zigzag z). Definition dec_i64 : dec Z := n <- dec_u64 ;; ret (unzigzag n).

Definition enc_bool (b : bool) : list N := [if b then 1 else 0].
Definition dec_bool : dec bool :=
  b <- dec_byte ;; if b =? 0 then ret false else if b =? 1 then ret true else fail.

(** A number of bytes; f32 and f64 are 4 and 8 bytes, little endian. *)
Definition dec_bytes (n : nat) : dec (list N) := fun bs =>
  if Nat.leb n (length bs) then Some (firstn n bs, skipn n bs) else None.
Definition dec_f (k : nat) : dec N := b <- dec_bytes k ;; ret (le_dec b).

(** A byte vector: length, then the bytes.  The length is compared as a number, so that
    a huge length fails at once. *)
Definition enc_blob (s : list N) : list N := enc_u64 (N.of_nat (length s)) ++ s.
Definition dec_blob : dec (list N) :=
  n <- dec_u64 ;; fun bs => if n <=? N.of_nat (length bs) then dec_bytes (N.to_nat n) bs else None.

(** core::str::from_utf8. *)
Definition cont (b : N) : bool := (128 <=? b) && (b <=? 191).
Definition three (a b c : N) : bool :=
  ((a =? 224) && (160 <=? b) && (b <=? 191) || (225 <=? a) && (a <=? 236) && cont b
   || (a =? 237) && (128 <=? b) && (b <=? 159) || (238 <=? a) && (a <=? 239) && cont b) && cont c.
Definition four (a b c d : N) : bool :=
  ((a =? 240) && (144 <=? b) && (b <=? 191) || (241 <=? a) && (a <=? 243) && cont b
   || (a =? 244) && (128 <=? b) && (b <=? 143)) && cont c && cont d.
Fixpoint utf8_ok (bs : list N) : bool :=
  match bs with
  | [] => true
  | a :: r =>
      if a <? 128 then utf8_ok r
      else match r with
           | [] => false
           | b :: r =>
               if (194 <=? a) && (a <=? 223) && cont b then utf8_ok r
               else match r with
                    | [] => false
                    | c :: r =>
                        if three a b c then utf8_ok r
                        else match r with
                             | [] => false
                             | d :: r => if four a b c d then utf8_ok r else false
                             end
                    end
           end
  end.

(** String: as a byte vector, but invalid UTF-8 is an error. *)
Definition enc_str := enc_blob.
Definition dec_str : dec (list N) := s <- dec_blob ;; if utf8_ok s then ret s else fail.

(** Vec<T>: length, then the elements. Every element takes at least a byte, so one more
    step than there are bytes is enough. *)
Definition enc_seq {A} (e : A -> list N) (l : list A) : list N :=
  enc_u64 (N.of_nat (length l)) ++ concat (map e l).
Fixpoint dec_n {A} (d : dec A) (fuel : nat) (n : N) : dec (list A) :=
  match fuel with
  | O => fail
  | S f => if n =? 0 then ret [] else a <- d ;; l <- dec_n d f (n - 1) ;; ret (a :: l)
  end.
Definition dec_seq {A} (d : dec A) : dec (list A) :=
  n <- dec_u64 ;; fun bs => dec_n d (S (length bs)) n bs.

(** ** Messages *)

(** src/types_db/value.rs:10-34, without Vector and Array; i32 etc. are integers, f64
    and f32 bit patterns. The variants are numbered in order from 0. *)
Inductive val :=
| VBool (b : bool) | VTiny (z : Z) | VSmall (z : Z) | VInt (z : Z) | VBig (z : Z)
| VDec (bits : N) | VFloat (bits : N) | VTs (n : N) | VDate (z : Z) | VTime (z : Z)
| VInterval (z : Z) | VVar (s : list N) | VConst (s : list N) | VBin (s : list N)
| VJson (s : list N) | VUuid (s : list N) | VEnum (z : Z) (s : list N)
| VPoint (x y : N) | VNull | VStruct.

Definition enc_val (v : val) : list N :=
  match v with
  | VBool b => 0 :: enc_bool b
  | VTiny z => 1 :: enc_i8 z
  | VSmall z => 2 :: enc_i16 z
  | VInt z => 3 :: enc_i32 z
  | VBig z => 4 :: enc_i64 z
  | VDec x => 5 :: le_enc 8 x
  | VFloat x => 6 :: le_enc 4 x
  | VTs n => 7 :: enc_u64 n
  | VDate z => 8 :: enc_i32 z
  | VTime z => 9 :: enc_i32 z
  | VInterval z => 10 :: enc_i64 z
  | VVar s => 11 :: enc_str s
  | VConst s => 12 :: enc_str s
  | VBin s => 13 :: enc_blob s
  | VJson s => 14 :: enc_str s
  | VUuid s => 15 :: enc_str s
  | VEnum z s => 18 :: enc_i32 z ++ enc_str s
  | VPoint x y => 19 :: le_enc 8 x ++ le_enc 8 y
  | VNull => [20]
  | VStruct => [21]
  end.

(** 16 and 17 (Vector, Array) are left out, so they fail here. *)
Definition dec_val : dec val :=
  t <- dec_u32 ;;
  match t with
  | 0 => b <- dec_bool ;; ret (VBool b)
  | 1 => z <- dec_i8 ;; ret (VTiny z)
  | 2 => z <- dec_i16 ;; ret (VSmall z)
  | 3 => z <- dec_i32 ;; ret (VInt z)
  | 4 => z <- dec_i64 ;; ret (VBig z)
  | 5 => x <- dec_f 8 ;; ret (VDec x)
  | 6 => x <- dec_f 4 ;; ret (VFloat x)
  | 7 => n <- dec_u64 ;; ret (VTs n)
  | 8 => z <- dec_i32 ;; ret (VDate z)
  | 9 => z <- dec_i32 ;; ret (VTime z)
  | 10 => z <- dec_i64 ;; ret (VInterval z)
  | 11 => s <- dec_str ;; ret (VVar s)
  | 12 => s <- dec_str ;; ret (VConst s)
  | 13 => s <- dec_blob ;; ret (VBin s)
  | 14 => s <- dec_str ;; ret (VJson s)
  | 15 => s <- dec_str ;; ret (VUuid s)
  | 18 => z <- dec_i32 ;; s <- dec_str ;; ret (VEnum z s)
  | 19 => x <- dec_f 8 ;; y <- dec_f 8 ;; ret (VPoint x y)
  | 20 => ret VNull
  | 21 => ret VStruct
  | _ => fail
  end.

(** src/types_db/value.rs:36-49; a TypeId is its number (type_id.rs:12-36). *)
Inductive vsize := Length (n : N) | Elem (t : N).
Record value := Value { v_val : val; v_size : vsize; v_manage : bool; v_type : N }.

Definition enc_type (t : N) : list N := enc_u32 t.
Definition dec_type : dec N := t <- dec_u32 ;; if t <? 22 then ret t else fail.
Definition enc_size (s : vsize) : list N :=
  match s with Length n => 0 :: enc_u64 n | Elem t => 1 :: enc_type t end.
Definition dec_size : dec vsize :=
  t <- dec_u32 ;;
  match t with
  | 0 => n <- dec_u64 ;; ret (Length n)
  | 1 => t <- dec_type ;; ret (Elem t)
  | _ => fail
  end.

(** struct_data is None: a zero byte. *)
Definition enc_value (v : value) : list N :=
  enc_val (v_val v) ++ enc_size (v_size v) ++ enc_bool (v_manage v) ++ enc_type (v_type v) ++ [0].
Definition dec_value : dec value :=
  v <- dec_val ;; s <- dec_size ;; m <- dec_bool ;; t <- dec_type ;;
  o <- dec_byte ;; if o =? 0 then ret (Value v s m t) else fail.

(** P 223-274; an isolation level is its number (transaction.rs:212-224). *)
Inductive request :=
| Query (sql : list N)
| BeginTxn (level : N)
| Commit
| Rollback
| Prepare (sql : list N)
| Execute (id : N) (params : list value)
| Close (id : N).

Definition enc_req (q : request) : list N :=
  match q with
  | Query s => 0 :: enc_str s
  | BeginTxn i => 1 :: enc_u32 i
  | Commit => [2]
  | Rollback => [3]
  | Prepare s => 4 :: enc_str s
  | Execute i ps => 5 :: enc_u64 i ++ enc_seq enc_value ps
  | Close i => 6 :: enc_u64 i
  end.
Definition dec_req : dec request :=
  t <- dec_u32 ;;
  match t with
  | 0 => s <- dec_str ;; ret (Query s)
  | 1 => i <- dec_u32 ;; if i <? 5 then ret (BeginTxn i) else fail
  | 2 => ret Commit
  | 3 => ret Rollback
  | 4 => s <- dec_str ;; ret (Prepare s)
  | 5 => i <- dec_u64 ;; ps <- dec_seq dec_value ;; ret (Execute i ps)
  | 6 => i <- dec_u64 ;; ret (Close i)
  | _ => fail
  end.

(** P 280-344. *)
Inductive response :=
| Results (columns : list (list N)) (rows : list (list value)) (messages : list (list N))
| PrepareOk (id : N) (types : list N)
| Error (msg : list N).

Definition enc_resp (p : response) : list N :=
  match p with
  | Results cs rs ms => 0 :: enc_seq enc_str cs ++ enc_seq (enc_seq enc_value) rs ++ enc_seq enc_str ms
  | PrepareOk i ts => 1 :: enc_u64 i ++ enc_seq enc_type ts
  | Error m => 2 :: enc_str m
  end.
Definition dec_resp : dec response :=
  t <- dec_u32 ;;
  match t with
  | 0 => cs <- dec_seq dec_str ;; rs <- dec_seq (dec_seq dec_value) ;; ms <- dec_seq dec_str ;;
         ret (Results cs rs ms)
  | 1 => i <- dec_u64 ;; ts <- dec_seq dec_type ;; ret (PrepareOk i ts)
  | 2 => m <- dec_str ;; ret (Error m)
  | _ => fail
  end.

(** ** The server's loop *)

(** The text of the error for a request that does not parse (S 386-389) is left out. *)
Definition bad_request : response := Error [].

Section Server.
  Context {DB : Type} (handle : DB -> request -> DB * response).

  (** S 375-396 and 464-489: what one read returned is taken as one request;
      postcard::from_bytes ignores what follows it. *)
  Definition serve_read (d : DB) (c : list N) : DB * response :=
    match dec_req c with
    | Some (q, _) => handle d q
    | None => (d, bad_request)
    end.

  (** S 365-402: one response for each read. *)
  Fixpoint serve (d : DB) (reads : list (list N)) : DB * list response :=
    match reads with
    | [] => (d, [])
    | c :: cs =>
        let (d1, p) := serve_read d c in
        let (d2, ps) := serve d1 cs in (d2, p :: ps)
    end.
End Server.

(** S 366: the size of the server's buffer. C 446: the client's. *)
Definition srv_buf : nat := N.to_nat 1024.
Definition cli_buf : nat := N.to_nat 4096.

(** ** The client's loop *)

Inductive got := Got (p : response) | Failed | Waiting.

(** C 444-489, receive_response: [reads] is what the reads of the socket will return;
    [Waiting] when they are used up.  The rest of the reads is what the next call sees. *)
Fixpoint recv (buf : list N) (reads : list (list N)) : got * list (list N) :=
  match reads with
  | [] => (Waiting, [])
  | c :: cs =>
      let buf := buf ++ c in
      match dec_resp buf with
      | Some (p, _) => (Got p, cs)
      | None => if Nat.ltb (length buf) cli_buf then recv buf cs else (Failed, cs)
      end
  end.

(** C 426-438, send_request, then receive_response, for a number of calls, one after the
    other: what each call returned. *)
Fixpoint calls (n : nat) (reads : list (list N)) : list got :=
  match n with
  | O => []
  | S n => let (g, rest) := recv [] reads in g :: calls n rest
  end.

(** ** Prepared statements *)

(** C 349-362 and 384-398: what the client makes of the answer. *)
Definition client_prepare (p : response) : option (N * list N) :=
  match p with PrepareOk i ts => Some (i, ts) | _ => None end.
Definition client_execute (p : response) : option (list (list N) * list (list value)) :=
  match p with Results cs rs _ => Some (cs, rs) | _ => None end.

(** D 397-402: a prepared statement; D 387: the table of prepared statements. *)
Record pstmt := PStmt { ps_sql : list N; ps_types : list N }.

Section Prepared.
  (** The rest of the database, and how it runs a statement (D 970-1007 with D 600-680 and
      D 1224-1275): the rows it selects, or an error message. *)
  Context {DB : Type}
    (run : DB -> list N -> list value -> DB * (list (list N) * list (list value) + list N))
    (other : DB -> request -> DB * response).

  Definition answer (x : list (list N) * list (list value) + list N) : response :=
    match x with inl (cs, rs) => Results cs rs [] | inr m => Error m end.

  Definition pdb : Type := DB * list (N * pstmt).

  Fixpoint lookup (i : N) (l : list (N * pstmt)) : option pstmt :=
    match l with [] => None | (j, s) :: r => if i =? j then Some s else lookup i r end.

  (** D 853-965: Prepare is handled by handle_sql_query (D 940-947); Execute looks the
      statement up (D 1121-1199); Close removes it (D 1202-1221). *)
  Definition phandle (d : pdb) (q : request) : pdb * response :=
    match q with
    | Prepare s => let (d', x) := run (fst d) s [] in ((d', snd d), answer x)
    | Execute i ps =>
        match lookup i (snd d) with
        | None => (d, Error [])
        | Some st =>
            if negb (Nat.eqb (length ps) (length (ps_types st))) then (d, Error [])
            else if negb (forallb (fun p => v_type (fst p) =? snd p) (combine ps (ps_types st))) then (d, Error [])
            else let (d', x) := run (fst d) (ps_sql st) ps in ((d', snd d), answer x)
        end
    | Close i => ((fst d, filter (fun e => negb (fst e =? i)) (snd d)), Results [] [] [])
    | q => let (d', p) := other (fst d) q in ((d', snd d), p)
    end.

  Definition prun (d : pdb) (qs : list request) : pdb := fold_left (fun d q => fst (phandle d q)) qs d.
End Prepared.
