(** The buffering code shared word for word by MD5, SHA1, SHA2<256> and SHA2<512>
    (md5.cpp:39-83, sha1.cpp:14-58, sha2.cpp:17-39 and 88-108, sha2.cpp:131-153 and
    220-240).  The four copies differ only in the block size ([B] below: 64, 64,
    2*hashsize = 64, 2*hashsize = 128), in the width of the length field and in
    [processChunk]; each is instantiated separately in M_MD5, M_SHA1 and M_SHA2. *)
From Verif Require Import Base.

(** md5.h:35-37, sha1.h:35-37, sha2.h:39-41 and 102-104: members chunk, h (w), msglength.
    [chunk] is uninitialised after construction: it is a parameter of the constructors. *)
Record hstate := mkH { h_chunk : list Z; h_words : list Z; h_len : Z }.

Section MD.
Variable B : Z.                                    (* block size in bytes *)
Variable processChunk : list Z -> list Z -> list Z. (* chunk -> words -> words *)

(** md5.cpp:54-60 (sha1.cpp:29-35, sha2.cpp:32-38, 146-152): the block loop and the
    final partial copy.  [fuel] bounds the iterations; running out is [Diverge]. *)
Fixpoint md_loop (fuel : nat) (chunk words data : list Z) (inoffset : Z) : res (list Z * list Z) :=
  match fuel with
  | O => Diverge
  | S k =>
      if B <=? w64 (zlen data - inoffset) then
        do src <- slice data inoffset B;
        do chunk' <- blit chunk 0 src;
        md_loop k chunk' (processChunk chunk' words) data (inoffset + B)
      else if w64 (zlen data - inoffset) =? 0 then Ok (chunk, words)
      else
        do src <- slice data inoffset (w64 (zlen data - inoffset));
        do chunk' <- blit chunk 0 src;
        Ok (chunk', words)
  end.

(** md5.cpp:39-61 (sha1.cpp:14-36, sha2.cpp:17-39, 131-153): [add]. *)
Definition md_add (s : hstate) (data : list Z) : res hstate :=
  let offset := h_len s mod B in
  let msglength := w64 (h_len s + zlen data) in
  let fuel := S (length data) in
  if negb (offset =? 0) then
    let copyNow := Z.min (zlen data) (B - offset) in
    do src <- slice data 0 copyNow;
    do chunk' <- blit (h_chunk s) offset src;
    if negb (offset + copyNow =? B) then Ok (mkH chunk' (h_words s) msglength)
    else
      do cw <- md_loop fuel chunk' (processChunk chunk' (h_words s)) data copyNow;
      Ok (mkH (fst cw) (snd cw) msglength)
  else
    do cw <- md_loop fuel (h_chunk s) (h_words s) data 0;
    Ok (mkH (fst cw) (snd cw) msglength).

(** The length loop, least significant byte first (md5.cpp:71-74). *)
Fixpoint msgsize_le (n : nat) (len : Z) : list Z :=
  match n with
  | O => []
  | S k => Z.land len 0xFF :: msgsize_le k (Z.shiftr len 8)
  end.

(** Variants of the length field: MD5 stores index 0 first (md5.cpp:71-74), the SHA
    family fills the array from its end (sha1.cpp:46-49, sha2.cpp:96-99, 228-231). *)
Variable lenbytes : nat.
Variable big_endian : bool.
Definition msgsize (len : Z) : list Z :=
  if big_endian then rev (msgsize_le lenbytes len) else msgsize_le lenbytes len.

(** md5.cpp:63-75 (sha1.cpp:38-50, sha2.cpp:88-100, 220-232): padding applied to a copy;
    returns the words of that copy. *)
Definition md_final (s : hstate) : res (list Z) :=
  let padsize := B - (w64 (h_len s + Z.of_nat lenbytes) mod B) in
  let zeroes := 0x80 :: repeat 0 (Z.to_nat B) in
  do pad <- slice zeroes 0 padsize;
  do copy <- md_add s pad;
  let len := w64 (h_len s * 8) in
  do copy2 <- md_add copy (msgsize len);
  Ok (h_words copy2).
End MD.

(** Output loops: word to bytes, most significant first (sha1.cpp:52-56, sha2.cpp:102-106,
    234-238) or least significant first (md5.cpp:77-81); [sz] = sizeof(word). *)
Definition out_be (sz : nat) (words : list Z) : list Z :=
  flat_map (fun v => map (fun j => Z.land (Z.shiftr v (8 * Z.of_nat sz - 8 - 8 * Z.of_nat j)) 0xFF) (seq 0 sz)) words.
Definition out_le (sz : nat) (words : list Z) : list Z :=
  flat_map (fun v => map (fun j => Z.land (Z.shiftr v (8 * Z.of_nat j)) 0xFF) (seq 0 sz)) words.

(** The hexadecimal conversion loops (md5.cpp:85-93, sha1.cpp:60-68, sha2.cpp:110-118,
    242-250, sha3.cpp:40-49, crc.cpp:64-72). *)
Definition hextab : list Z := [48; 49; 50; 51; 52; 53; 54; 55; 56; 57; 97; 98; 99; 100; 101; 102].
Definition hex_string (data : list Z) : list Z :=
  flat_map (fun c => [nth (Z.to_nat (Z.shiftr c 4)) hextab 0; nth (Z.to_nat (Z.land c 0xF)) hextab 0]) data.
