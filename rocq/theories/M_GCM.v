(** Model of /repo/include/caligo/ghash.h, gcm.h, ctr.h and legacy/ecb.h, cbc.h.

    In ghash.h an __m128i is the integer [le_val] of its 16 bytes in memory; lanes are bit fields
    of it.  The block cipher Cipher::Encrypt(sched, .) is a function [E] on 16-byte lists (for
    AES: [AesEncrypt rks]). *)
From Verif Require Import Base M_HKDF.
Open Scope Z_scope.

(** Lanes of 64 and 32 bits. *)
Definition lane (w : Z) (v : Z) (i : Z) : Z := (v / 2 ^ (w * i)) mod 2 ^ w.
Definition lanes64 (f : Z -> Z) (v : Z) : Z := f (lane 64 v 0) + 2 ^ 64 * f (lane 64 v 1).
Definition lanes32 (f : Z -> Z) (v : Z) : Z :=
  f (lane 32 v 0) + 2 ^ 32 * f (lane 32 v 1) + 2 ^ 64 * f (lane 32 v 2) + 2 ^ 96 * f (lane 32 v 3).
(** v >> k and v << k on a GCC vector of two long long: arithmetic right shift per lane. *)
Definition sra64 (v k : Z) : Z :=
  lanes64 (fun x => (Z.shiftr (if 2 ^ 63 <=? x then x - 2 ^ 64 else x) k) mod 2 ^ 64) v.
Definition shl64 (v k : Z) : Z := lanes64 (fun x => (Z.shiftl x k) mod 2 ^ 64) v.
(** _mm_setr_epi32 with four times the same value. *)
Definition rep4 (x : Z) : Z := x + 2 ^ 32 * x + 2 ^ 64 * x + 2 ^ 96 * x.

(** ghash.h:7-18. *)
Definition reflect_step (k x y v : Z) : Z := Z.lor (Z.land (sra64 v k) (rep4 y)) (Z.land (shl64 v k) (rep4 x)).
Definition reflect (v : Z) : Z :=
  let v := reflect_step 4 0xF0F0F0F0 0x0F0F0F0F v in
  let v := reflect_step 2 0xCCCCCCCC 0x33333333 v in
  reflect_step 1 0xAAAAAAAA 0x55555555 v.

(** PCLMULQDQ: carry-less product of one 64-bit lane of each operand, selected by bits 0 and 4
    of the immediate. *)
Fixpoint clmul (n : nat) (a b : Z) : Z :=
  match n with
  | O => 0
  | S k => Z.lxor (clmul k a b) (if Z.testbit a (Z.of_nat k) then Z.shiftl b (Z.of_nat k) else 0)
  end.
Definition clmulepi64 (a b imm : Z) : Z := clmul 64 (lane 64 a (imm mod 2)) (lane 64 b ((imm / 16) mod 2)).
Definition shuffle32 (v imm : Z) : Z :=
  lane 32 v (imm mod 4) + 2 ^ 32 * lane 32 v ((imm / 4) mod 4) + 2 ^ 64 * lane 32 v ((imm / 16) mod 4) + 2 ^ 96 * lane 32 v ((imm / 64) mod 4).
Definition slli128 (v k : Z) : Z := (Z.shiftl v (8 * k)) mod 2 ^ 128.
Definition srli128 (v k : Z) : Z := Z.shiftr v (8 * k).
Definition srli_epi32 (v k : Z) : Z := lanes32 (fun x => Z.shiftr x k) v.
Definition slli_epi32 (v k : Z) : Z := lanes32 (fun x => (Z.shiftl x k) mod 2 ^ 32) v.
(** _mm_andnot_si128(a, b) = ~a & b. *)
Definition andnot128 (a b : Z) : Z := Z.land (2 ^ 128 - 1 - a) b.

(** ghash.h:20-33. *)
Definition galoisMultiply (a b : Z) : Z :=
  let XMMMASK := 0xffffffff in
  let tmp3 := clmulepi64 a b 0x00 in
  let tmp6 := clmulepi64 a b 0x11 in
  let tmp4 := Z.lxor (Z.lxor (clmulepi64 (Z.lxor (shuffle32 a 78) a) (Z.lxor (shuffle32 b 78) b) 0x00) tmp3) tmp6 in
  let tmp3 := Z.lxor tmp3 (slli128 tmp4 8) in
  let tmp6 := Z.lxor tmp6 (srli128 tmp4 8) in
  let tmp8 := shuffle32 (Z.lxor (Z.lxor (srli_epi32 tmp6 31) (srli_epi32 tmp6 30)) (srli_epi32 tmp6 25)) 0x93 in
  let tmp3 := Z.lxor tmp3 (andnot128 XMMMASK tmp8) in
  let tmp6 := Z.lxor tmp6 (Z.land XMMMASK tmp8) in
  Z.lxor (Z.lxor (Z.lxor (Z.lxor tmp3 tmp6) (slli_epi32 tmp6 1)) (slli_epi32 tmp6 2)) (slli_epi32 tmp6 7).
(** ghash.h:35-37. *)
Definition ghash_block (x h hash : Z) : Z := galoisMultiply (Z.lxor hash x) h.

(** The GCM object; [z] is written before it is read in every call and is a local here. *)
Record gcm := Gcm { g_h : Z; g_iv : list Z; g_count : Z }.

(** gcm.h:39-47, 48-56: whole blocks, then a zero-padded rest. *)
Fixpoint absorb_blocks (h : Z) (data : list Z) (count : nat) (n : Z) (chash : Z) : res Z :=
  match count with
  | O => Ok chash
  | S k => do b <- slice data (16 * n) 16; absorb_blocks h data k (n + 1) (ghash_block (reflect (le_val b)) h chash)
  end.
Definition absorb (h : Z) (data : list Z) (chash : Z) : res Z :=
  let blocks := zlen data / 16 in
  do chash <- absorb_blocks h data (Z.to_nat blocks) 0 chash;
  let bytes := zlen data - blocks * 16 in
  if 0 <? bytes
  then do t <- slice data (zlen data - bytes) bytes;
       Ok (ghash_block (reflect (le_val (t ++ repeat 0 (Z.to_nat (16 - bytes))))) h chash)
  else Ok chash.
(** gcm.h:58-65: eight bytes of each length, from the last to the first. *)
Fixpoint size_bytes (n : nat) (v : Z) (acc : list Z) : list Z :=
  match n with O => acc | S k => size_bytes k (Z.shiftr v 8) (Z.land v 0xFF :: acc) end.
(** gcm.h:35-71. *)
Definition ghash (h : Z) (ciphertext aad : list Z) : res (list Z) :=
  do c <- absorb h aad 0;
  do c <- absorb h ciphertext c;
  let sizes := size_bytes 8 (w64 (zlen aad * 8)) [] ++ size_bytes 8 (w64 (zlen ciphertext * 8)) [] in
  Ok (le_bytes 16 (reflect (ghash_block (reflect (le_val sizes)) h c))).
(** gcm.h:72-80. *)
Definition calculate_tag (h z : Z) (ciphertext aad : list Z) : res (list Z) :=
  do tag <- ghash h ciphertext aad;
  Ok (le_bytes 16 (reflect (Z.lxor (reflect (le_val tag)) z))).

(** gcm.h:13-25. *)
Definition gcm_init (E : list Z -> list Z) (iv : list Z) : res gcm :=
  let h := reflect (le_val (E (repeat 0 16))) in
  if (zlen iv =? 8) || (12 <? zlen iv)
  then do r <- ghash h iv []; Ok (Gcm h r 0)
  else Ok (Gcm h iv 0).

(** gcm.h:26-34. *)
Definition bump8 (C : list Z) (i : Z) : res (list Z * bool) :=
  do b <- getz C i; do C' <- setz C i (w8 (b + 1)); Ok (C', w8 (b + 1) =? 0).
Definition ctr_inc (C : list Z) : res (list Z) :=
  do (C, z) <- bump8 C 15;
  if negb z then Ok C else
  do (C, z) <- bump8 C 14;
  if negb z then Ok C else
  do (C, z) <- bump8 C 13;
  if negb z then Ok C else
  do (C, _) <- bump8 C 12;
  Ok C.
(** gcm.h:83-96 and 117-130: the first counter block of a message. *)
Fixpoint xor_bytes (C : list Z) (i : Z) (shifts : list Z) (m : Z) : res (list Z) :=
  match shifts with
  | [] => Ok C
  | s :: t => do b <- getz C i; do C' <- setz C i (Z.lxor b (Z.land (Z.shiftr m s) 0xFF)); xor_bytes C' (i + 1) t m
  end.
Definition first_ctr (iv : list Z) (m : Z) : res (list Z) :=
  do C <- blit (repeat 0 16) 0 iv;
  do C <- xor_bytes C 4 [56; 48; 40; 32; 24; 16; 8; 0] m;
  if zlen iv =? 12
  then do C <- setz C 12 0; do C <- setz C 13 0; do C <- setz C 14 0; setz C 15 1
  else Ok C.
(** dst[off + k] ^= src[off + k] for k < len. *)
Definition xor_range (dst src : list Z) (off len : Z) : res (list Z) :=
  do d <- slice dst off len; do s <- slice src off len; blit dst off (xorl d s).
(** gcm.h:103-110 (Decrypt), 145-153 (Encrypt): the block is stored, then part of it is xored.
    [shrink]: Encrypt resizes inside the loop.  The counter blocks given to the cipher are
    recorded in [used]. *)
Fixpoint ctr_loop (E : list Z -> list Z) (shrink : bool) (inp : list Z) (count : nat) (n : Z) (ctr out : list Z) (used : list (list Z)) : res (list Z * list (list Z)) :=
  match count with
  | O => Ok (out, used)
  | S k =>
      do ctr <- ctr_inc ctr;
      do out <- blit out (16 * n) (E ctr);
      do out <- xor_range out inp (16 * n) (Z.min (zlen inp - 16 * n) 16);
      let out := if shrink then resize out (zlen inp) else out in
      ctr_loop E shrink inp k (n + 1) ctr out (used ++ [ctr])
  end.
(** gcm.h:139-144: whole blocks in Encrypt. *)
Fixpoint full_loop (E : list Z -> list Z) (inp : list Z) (count : nat) (n : Z) (ctr out : list Z) (used : list (list Z)) : res (list Z * list Z * list (list Z)) :=
  match count with
  | O => Ok (ctr, out, used)
  | S k =>
      do ctr <- ctr_inc ctr;
      do p <- slice inp (16 * n) 16;
      do out <- blit out (16 * n) (xorl (E ctr) p);
      full_loop E inp k (n + 1) ctr out (used ++ [ctr])
  end.

(** gcm.h:115-157: ciphertext, tag, the object afterwards and the cipher inputs used. *)
Definition Encrypt (E : list Z -> list Z) (g : gcm) (plaintext aad : list Z) : res (list Z * list Z * gcm * list (list Z)) :=
  if zlen (g_iv g) <? 12 then Ok ([], repeat 0 16, g, []) else
  do ctr <- first_ctr (g_iv g) (g_count g);
  let z := reflect (le_val (E ctr)) in
  let blocks := (zlen plaintext + 15) / 16 in
  let partial := negb (zlen plaintext =? blocks * 16) in
  let full := if partial then blocks - 1 else blocks in
  do (ctr', ct, used) <- full_loop E plaintext (Z.to_nat full) 0 ctr (repeat 0 (Z.to_nat (16 * blocks))) [ctr];
  do (ct, used) <- ctr_loop E true plaintext (Z.to_nat (blocks - full)) full ctr' ct used;
  do tag <- calculate_tag (g_h g) z ct aad;
  Ok (ct, tag, Gcm (g_h g) (g_iv g) (w64 (g_count g + 1)), used).

(** gcm.h:81-114. *)
Definition Decrypt (E : list Z -> list Z) (g : gcm) (ciphertext aad tag : list Z) : res (list Z * bool * gcm * list (list Z)) :=
  if zlen (g_iv g) <? 12 then Ok ([], false, g, []) else
  do ctr <- first_ctr (g_iv g) (g_count g);
  let z := reflect (le_val (E ctr)) in
  let blocks := (zlen ciphertext + 15) / 16 in
  do (pt, used) <- ctr_loop E false ciphertext (Z.to_nat blocks) 0 ctr (repeat 0 (Z.to_nat (16 * blocks))) [ctr];
  let pt := resize pt (zlen ciphertext) in
  do calc <- calculate_tag (g_h g) z ciphertext aad;
  Ok (pt, (8 <=? zlen (g_iv g)) && list_eqb calc tag, Gcm (g_h g) (g_iv g) (w64 (g_count g + 1)), used).

(** ctr.h:12-20: the sizes are checked after the key schedule was made. *)
Definition ctr_init (keysize : Z) (key iv : list Z) : res unit :=
  if negb (zlen key =? keysize) || negb (zlen iv =? 16) then Throw else Ok tt.
(** ctr.h:30-57.  The cipher blocks are stored behind the end of the empty vector (inside its
    reserved capacity, blocks * 16 bytes; a write beyond it would be UB), and resize(size) then
    fills the vector with zeroes.  [cap] is the content of the reserved memory. *)
Fixpoint ctr_store (E : list Z -> list Z) (count : nat) (n : Z) (ctr cap : list Z) : res (list Z) :=
  match count with
  | O => Ok cap
  | S k => do ctr <- ctr_inc ctr; do cap <- blit cap (16 * n) (E ctr); ctr_store E k (n + 1) ctr cap
  end.
Definition GenerateKeystream (E : list Z -> list Z) (iv : list Z) (count size : Z) : res (list Z) :=
  do ctr <- first_ctr iv count;
  let blocks := (size + 15) / 16 in
  do _ <- ctr_store E (Z.to_nat blocks) 0 ctr (repeat 0 (Z.to_nat (16 * blocks)));
  Ok (resize [] size).
(** ctr.h:58-69: both directions; the data after the call and the message counter. *)
Definition ctr_crypt (E : list Z -> list Z) (iv : list Z) (count : Z) (data : list Z) : res (list Z * Z) :=
  do ks <- GenerateKeystream E iv count (zlen data);
  Ok (map2 Z.lxor data ks, w64 (count + 1)).

(** legacy/ecb.h:16-27; [n] is Cipher::size, [f] the cipher on one block (in place).  The assert is taken as active. *)
Fixpoint blocks_loop (f : list Z -> list Z) (n : Z) (fuel : nat) (i : Z) (data : list Z) : res (list Z) :=
  if i <? zlen data then
    match fuel with
    | O => Diverge
    | S k => do b <- slice data i n; do data <- blit data i (f b); blocks_loop f n k (i + n) data
    end
  else Ok data.
Definition ecb_crypt (f : list Z -> list Z) (n : Z) (data : list Z) : res (list Z) :=
  if negb (zlen data mod n =? 0) then UB else blocks_loop f n (length data) 0 data.
(** legacy/cbc.h:17-22: Decrypt is the same loop; 23-33: Encrypt xors the previous block. *)
Definition cbc_decrypt (D : list Z -> list Z) (n : Z) (iv data : list Z) : res (list Z) :=
  if negb (zlen data mod n =? 0) then UB else blocks_loop D n (length data) 0 data.
Fixpoint cbc_loop (E : list Z -> list Z) (n : Z) (iv : list Z) (fuel : nat) (i : Z) (data : list Z) : res (list Z) :=
  if i <? zlen data then
    match fuel with
    | O => Diverge
    | S k =>
        do b <- slice data i n;
        do prev <- (if i =? 0 then slice iv 0 n else slice data (i - n) n);
        do data <- blit data i (E (xorl b prev));
        cbc_loop E n iv k (i + n) data
    end
  else Ok data.
Definition cbc_encrypt (E : list Z -> list Z) (n : Z) (iv data : list Z) : res (list Z) :=
  if negb (zlen data mod n =? 0) then UB else cbc_loop E n iv (length data) 0 data.
