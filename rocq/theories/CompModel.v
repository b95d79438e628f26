(** * The compression engine *)
(** src/storage/disk/async_disk/compression.rs (C). Bytes are [N]s. The crates lz4_flex and zstd are parameters: an encoder, and
    a decoder that fails ([None]) on input it does not accept, which makes C panic (expect, 129 and 135). The statistics
    (C 74-81) do not influence the bytes and are left out. *)
From Coq Require Import NArith.
From stdpp Require Import list.
From Verif Require Import Bytes CompSpec.
Local Open Scope N_scope.

(** C 19-20. *)
Definition MAGIC_LZ4 : N := 240.
Definition MAGIC_ZSTD : N := 241.

(** C 151-189: the old run-length format. [0xFF] starts an escape. *)
Fixpoint expand (l : list N) : list N :=
  match l with
  | [] => []
  | b :: l1 =>
      if b =? 255 then
        match l1 with
        | [] => [255]                                            (* 156-160 *)
        | c :: l2 =>
            if c =? 0 then 255 :: expand l2                      (* 163-166 *)
            else if c =? 254 then expand l2                      (* 167-170 *)
            else match l2 with
                 | d :: l3 => replicate (N.to_nat c) d ++ expand l3   (* 171-178 *)
                 | [] => 255 :: expand l1                        (* 179-182 *)
                 end
        end
      else b :: expand l1                                        (* 184-187 *)
  end.

Section Engine.
Context (lz4_enc : list N -> list N) (lz4_dec : list N -> option (list N)).
Context (zstd_enc : N -> list N -> list N) (zstd_dec : list N -> option (list N)).

(** C 87-101. *)
Definition compress_lz4 (data : list N) : list N :=
  match data with [] => [] | _ => MAGIC_LZ4 :: lz4_enc data end.
(** C 104-118. *)
Definition compress_zstd (level : N) (data : list N) : list N :=
  match data with [] => [] | _ => MAGIC_ZSTD :: zstd_enc level data end.
(** C 59-84. *)
Definition compress_data (a : algorithm) (level : N) (data : list N) : list N :=
  match a with
  | ANone => data
  | ALz4 => compress_lz4 data
  | AZstd => compress_zstd level data
  end.
(** C 121-192. [None] is a panic. *)
Definition decompress_data (c : list N) : option (list N) :=
  match c with
  | [] => Some []
  | b :: rest =>
      if b =? MAGIC_LZ4 then lz4_dec rest
      else if b =? MAGIC_ZSTD then zstd_dec rest
      else match c with
           | [x] => Some [x]
           | [x; y; l0; l1; l2; l3] =>
               if (x =? 255) && (y =? 254) then Some (replicate (N.to_nat (le_dec [l0; l1; l2; l3])) 0)
               else Some (expand c)
           | _ => Some (expand c)
           end
  end.
End Engine.
