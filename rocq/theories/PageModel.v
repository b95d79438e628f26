(** * Table pages

    Models src/storage/page/page_types/table_page.rs.  A tuple is the byte string postcard gives
    for it; a page's 4096 bytes are a function from positions to bytes, of which only positions
    below 4096 are ever used (proved: the slots stay in the page). *)
From stdpp Require Import list.
From Coq Require Import NArith.
From Verif Require Import Bytes.
Local Open Scope N_scope.

(** src/common/config.rs: DB_PAGE_SIZE, TUPLE_MAX_SERIALIZED_SIZE, INVALID_PAGE_ID. *)
Definition psize : N := 4096.
Definition max_tuple : N := 3500.
Definition no_page : N := 2 ^ 64 - 1.

Definition blen (l : list N) : N := N.of_nat (length l).

(** src/storage/table/tuple.rs:219-234, TupleMeta. *)
Record tmeta := TMeta { tm_creator : N; tm_ts : option N; tm_del : bool; tm_undo : option N }.

(** postcard's encoding of a u64: 7 bits per byte, lowest first, high bit = more to come. *)
Fixpoint varint_enc (fuel : nat) (x : N) : list N :=
  match fuel with
  | O => []
  | S f => if x <? 128 then [x] else (x mod 128 + 128) :: varint_enc f (x / 128)
  end.
Definition u64_enc (x : N) : list N := varint_enc 10 x.

(** postcard's decoder: at most ten bytes, the tenth at most 1. *)
Fixpoint varint_dec (fuel : nat) (l : list N) : option (N * list N) :=
  match fuel, l with
  | S f, b :: l =>
      if b <? 128 then (if (f =? 0)%nat && (1 <? b) then None else Some (b, l))
      else match varint_dec f l with
           | Some (x, l) => Some (b - 128 + 128 * x, l)
           | None => None
           end
  | _, _ => None
  end.
Definition u64_dec (l : list N) : option (N * list N) := varint_dec 10 l.

(** postcard: Option is a tag byte and the payload, bool is one byte. *)
Definition opt_enc (x : option N) : list N := match x with None => [0] | Some x => 1 :: u64_enc x end.
Definition opt_dec (l : list N) : option (option N * list N) :=
  match l with
  | 0 :: l => Some (None, l)
  | 1 :: l => match u64_dec l with Some (x, l) => Some (Some x, l) | None => None end
  | _ => None
  end.
Definition bool_enc (b : bool) : list N := [if b then 1 else 0].
Definition bool_dec (l : list N) : option (bool * list N) :=
  match l with 0 :: l => Some (false, l) | 1 :: l => Some (true, l) | _ => None end.

(** postcard::to_allocvec and from_bytes of a TupleMeta (fields in declaration order). *)
Definition meta_enc (m : tmeta) : list N :=
  u64_enc (tm_creator m) ++ opt_enc (tm_ts m) ++ bool_enc (tm_del m) ++ opt_enc (tm_undo m).
Definition meta_dec (l : list N) : option tmeta :=
  match u64_dec l with
  | Some (c, l) =>
      match opt_dec l with
      | Some (ts, l) =>
          match bool_dec l with
          | Some (d, l) => match opt_dec l with Some (u, _) => Some (TMeta c ts d u) | None => None end
          | None => None
          end
      | None => None
      end
  | None => None
  end.

(** [data[start..start + len]] and [data[start..].copy_from_slice(bs)]. *)
Definition slice (d : N -> N) (start len : N) : list N :=
  map (fun i => d (start + N.of_nat i)) (seq 0 (N.to_nat len)).
Definition blit (d : N -> N) (start : N) (bs : list N) : N -> N :=
  fun i => if (start <=? i) && (i <? start + blen bs) then nth (N.to_nat (i - start)) bs 0 else d i.
Definition zeros (n : N) : list N := repeat 0 (N.to_nat n).

(** A slot: offset, size, metadata. *)
Notation slot := (N * N * tmeta)%type.

(** src/storage/page/page_types/table_page.rs:101-117.  The pin count is the buffer pool's. *)
Record page := Page { p_id : N; p_next : N; p_prev : N; p_num : N; p_ndel : N;
                      p_info : list slot; p_data : N -> N; p_dirty : bool }.

(** 219-245: new, then init. *)
Definition new_page (id : N) : page :=
  Page id no_page no_page 0 0 [] (blit (blit (fun _ => 0) 0 [2]) 1 (le_enc 8 id)) false.

(** 870-901: encoded_tuple_info_bytes, metadata_footprint_bytes, metadata_footprint_with_new. *)
Definition info_bytes (l : list slot) : N := foldr (fun s n => 4 + blen (meta_enc s.2) + n) 0 l.
Definition footprint (p : page) : N := 1 + 28 + 4 + info_bytes (p_info p) + 4.
Definition footprint_new (p : page) (m : tmeta) : N :=
  1 + 28 + 4 + info_bytes (p_info p) + 4 + blen (meta_enc m) + 4.

Definition as_u16 (x : N) : N := x mod 65536.

(** 937-955, is_tuple_too_large. *)
Definition too_large (p : page) (bs : list N) : bool :=
  (max_tuple <? blen bs) || (psize <? blen bs + footprint_new p (TMeta 0 None false None)).

(** 248-291, get_next_tuple_offset.  [num_tuples - 1] is always a slot (proved). *)
Definition next_offset (p : page) (m : tmeta) (bs : list N) : option N :=
  if too_large p bs then None
  else
    let size := as_u16 (blen bs) in
    if max_tuple <? size then None
    else
      let slot_end := if 0 <? p_num p
                      then match p_info p !! (N.to_nat (p_num p) - 1)%nat with Some s => s.1.1 | None => 0 end
                      else psize in
      let o := slot_end - size in
      if o <? as_u16 (footprint_new p m) then None else Some o.

(** 134-156, TablePageHeader::serialize. *)
Definition header_enc (p : page) : list N :=
  le_enc 8 (p_id p) ++ le_enc 8 (p_next p) ++ le_enc 8 (p_prev p) ++ le_enc 2 (p_num p) ++ le_enc 2 (p_ndel p).

(** 0xDEADBEEF and 0xCAFEBABE, big-endian. *)
Definition magic : list N := [0xDE; 0xAD; 0xBE; 0xEF].
Definition end_magic : list N := [0xCA; 0xFE; 0xBA; 0xBE].

(** 606-639: the slot directory. *)
Fixpoint write_infos (buf : N -> N) (off : N) (l : list slot) : (N -> N) * N :=
  match l with
  | [] => (buf, off)
  | s :: l =>
      if psize <? off + 8 then (buf, off)
      else
        let buf := blit buf off (le_enc 2 s.1.1 ++ le_enc 2 s.1.2) in
        let mb := meta_enc s.2 in
        if psize <? off + 4 + blen mb + 4 then (buf, off)
        else write_infos (blit buf (off + 4) mb) (off + 4 + blen mb) l
  end.

(** 558-674, serialize. *)
Definition serialize (p : page) : N -> N :=
  let buf := blit (blit (blit (fun _ => 0) 0 [2]) 1 (header_enc p)) 29 magic in
  let '(buf, off) := write_infos buf 33 (p_info p) in
  let buf := if off + 4 <=? psize then blit buf off end_magic else blit buf (psize - 4) end_magic in
  fold_left (fun b s => blit b s.1.1 (slice (p_data p) s.1.1 s.1.2)) (p_info p) buf.

(** 1052-1134, insert_tuple_with_rid ([None]: refused). *)
Definition insert_with_rid (m : tmeta) (bs : list N) (p : page) : option page :=
  match next_offset p m bs with
  | None => None
  | Some o =>
      if o + blen bs <=? psize
      then
        let p1 := Page (p_id p) (p_next p) (p_prev p) (p_num p + 1) (p_ndel p)
                    (p_info p ++ [(o, as_u16 (blen bs), m)]) (blit (p_data p) o bs) true in
        Some (Page (p_id p1) (p_next p1) (p_prev p1) (p_num p1) (p_ndel p1) (p_info p1) (serialize p1) true)
      else None
  end.

(** 964-1048, insert_tuple: the tuple must carry the RID it is going to get. *)
Definition insert_tuple (m : tmeta) (bs : list N) (rid : N * N) (p : page) : option page :=
  match next_offset p m bs with
  | None => None
  | Some _ => if (rid.1 =? p_id p) && (rid.2 =? p_num p) then insert_with_rid m bs p else None
  end.

Inductive pres := POk (p : page) | PErr (p : page) | PPanic.

Definition set_slot (k : nat) (s : slot) (d : N -> N) (dirty : bool) (p : page) : page :=
  Page (p_id p) (p_next p) (p_prev p) (p_num p) (p_ndel p) (<[k := s]> (p_info p)) d dirty.

(** 342-349: the lowest offset of the other slots. *)
Definition low_others (k : nat) (l : list slot) : N :=
  foldr (fun s n => N.min s.1.1 n) psize (take k l ++ drop (S k) l).

(** 293-379, update_tuple.  copy_from_slice panics when the lengths differ, which happens when
    the size does not fit in 16 bits. *)
Definition update_tuple (k : nat) (m : tmeta) (bs : list N) (p : page) : pres :=
  match p_info p !! k with
  | None => PErr p
  | Some (off, size, _) =>
      if p_num p <=? N.of_nat k then PErr p
      else
        let new_size := as_u16 (blen bs) in
        if new_size <=? size
        then
          if off + new_size <=? psize
          then
            if blen bs =? new_size
            then
              let d := blit (p_data p) off bs in
              let d := if (new_size <? size) && (off + size <=? psize)
                       then blit d (off + new_size) (zeros (size - new_size)) else d in
              POk (set_slot k (off, new_size, m) d true p)
            else PPanic
          else PErr (set_slot k (off, new_size, m) (p_data p) (p_dirty p) p)
        else
          let new_off := low_others k (p_info p) - new_size in
          if new_off <? as_u16 (footprint p) then PErr p
          else
            let d := if off + size <=? psize then blit (p_data p) off (zeros size) else p_data p in
            if new_off + new_size <=? psize
            then if blen bs =? new_size
                 then POk (set_slot k (new_off, new_size, m) (blit d new_off bs) true p)
                 else PPanic
            else PErr (set_slot k (new_off, new_size, m) d (p_dirty p) p)
  end.

(** 382-447, update_tuple_meta.  The 16-bit count wraps, as it does in release builds (a build with
    overflow checks panics there). *)
Definition update_meta (k : nat) (m : tmeta) (p : page) : pres :=
  match p_info p !! k with
  | None => PErr p
  | Some (off, size, old) =>
      if p_num p <=? N.of_nat k then PErr p
      else
        let nd := match tm_del old, tm_del m with
                  | false, true => as_u16 (p_ndel p + 1)
                  | true, false => p_ndel p - 1
                  | _, _ => p_ndel p
                  end in
        POk (Page (p_id p) (p_next p) (p_prev p) (p_num p) nd (<[k := (off, size, m)]> (p_info p)) (p_data p) true)
  end.

(** 459-509, get_tuple ([None]: an error; decoding the bytes is postcard's).  The slice is
    always in the page (proved). *)
Definition get_tuple (pid : N) (k : nat) (allow_deleted : bool) (p : page) : option (tmeta * list N) :=
  if pid =? p_id p
  then match p_info p !! k with
       | None => None
       | Some (off, size, m) =>
           if tm_del m && negb allow_deleted then None else Some (m, slice (p_data p) off size)
       end
  else None.

(** 547-555. *)
Definition set_next (n : N) (p : page) : page :=
  Page (p_id p) n (p_prev p) (p_num p) (p_ndel p) (p_info p) (p_data p) true.
Definition set_prev (n : N) (p : page) : page :=
  Page (p_id p) (p_next p) n (p_num p) (p_ndel p) (p_info p) (p_data p) true.

(** 158-212, TablePageHeader::deserialize: page, next, prev, number of tuples, of deleted. *)
Definition header_dec (l : list N) : N * N * N * N * N :=
  (le_dec (take 8 l), le_dec (take 8 (drop 8 l)), le_dec (take 8 (drop 16 l)),
   le_dec (take 2 (drop 24 l)), le_dec (take 2 (drop 26 l))).

(** 720-742: the slot directory ([None]: an error or an index out of bounds). *)
Fixpoint read_infos (d : N -> N) (off : N) (n : nat) : option (list slot * N) :=
  match n with
  | O => Some ([], off)
  | S n =>
      if psize <? off + 4 then None
      else match meta_dec (slice d (off + 4) (psize - (off + 4))) with
           | None => None
           | Some m =>
               match read_infos d (off + 4 + blen (meta_enc m)) n with
               | None => None
               | Some (l, e) => Some ((le_dec (slice d off 2), le_dec (slice d (off + 2) 2), m) :: l, e)
               end
           end
  end.

Definition bytes_eqb (a b : list N) : bool := if decide (a = b) then true else false.

(** 677-804, deserialize. *)
Definition deserialize (d : N -> N) : option page :=
  if negb (d 0 =? 2) then None
  else
    let '(id, next, prev, num, ndel) := header_dec (slice d 1 28) in
    if negb (bytes_eqb (slice d 29 4) magic) then None
    else match read_infos d 33 (N.to_nat num) with
         | None => None
         | Some (infos, off) =>
             if bytes_eqb (slice d 41 4) end_magic
                || ((off + 4 <=? psize) && bytes_eqb (slice d off 4) end_magic)
                || bytes_eqb (slice d (psize - 4) 4) end_magic
             then Some (Page id next prev num ndel infos d false)
             else None
         end.

(** What the buffer pool writes for a page: PageTrait::get_data, table_page.rs:1192-1194
    (src/buffer/buffer_pool_manager_async.rs, write_page_to_disk_async). *)
Definition image (p : page) : N -> N := p_data p.

(** What the buffer pool makes of an image it reads (src/buffer/buffer_pool_manager_async.rs:
    665-721, create_page_from_data, 1092-1111, create_typed_page, and set_data,
    table_page.rs:1200-1210). *)
Definition load (pid : N) (d : N -> N) : option page :=
  if d 0 =? 2 then Some (Page pid no_page no_page 0 0 [] (blit (fun _ => 0) 0 (slice d 0 psize)) true) else None.

(** Calls. *)
Inductive pop :=
| PInsert (m : tmeta) (bs : list N)
| PUpdate (k : nat) (m : tmeta) (bs : list N)
| PMeta (k : nat) (m : tmeta)
| PNext (n : N)
| PPrev (n : N).

Definition pstep (o : pop) (p : page) : pres :=
  match o with
  | PInsert m bs => match insert_with_rid m bs p with Some p => POk p | None => PErr p end
  | PUpdate k m bs => update_tuple k m bs p
  | PMeta k m => update_meta k m p
  | PNext n => POk (set_next n p)
  | PPrev n => POk (set_prev n p)
  end.

(** Outcomes of the calls (accepted or not), and the page; [None] after a panic. *)
Fixpoint prun (ops : list pop) (p : page) : option (list bool * page) :=
  match ops with
  | [] => Some ([], p)
  | o :: ops =>
      match pstep o p with
      | POk p1 => match prun ops p1 with Some (rs, p2) => Some (true :: rs, p2) | None => None end
      | PErr p1 => match prun ops p1 with Some (rs, p2) => Some (false :: rs, p2) | None => None end
      | PPanic => None
      end
  end.
